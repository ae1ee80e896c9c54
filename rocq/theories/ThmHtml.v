(** C72: elements kept as HTML or as plain text (plugin/base/renderers.go). *)
From Coq Require Import List NArith ZArith Bool String.
From Verif Require Import Bytes SpecText Dom Escape Engine CommonMark SpecEngine EngineFacts SpecPipeline SpecHtml HtmlFacts.
Import ListNotations.
Open Scope N_scope.
Open Scope list_scope.

(** A converter with the bundled plugins [us] on which RendererFor(x, t, RenderAsHTML, PriorityEarly) was called. [html] is
    html.Render, whatever it is. *)
Definition keeping (x : bytes) (t : tag_type) (html : node -> bytes) (m : escape_mode) (us : list use) : converter :=
  do_actions (reg_renderer_for x t (render_as_html html) prio_early) (converter_with m us).
Definition wrapping (x : bytes) (t : tag_type) (m : escape_mode) (us : list use) : converter :=
  do_actions (reg_renderer_for x t render_as_html_wrapper prio_early) (converter_with m us).

(** C72. An element kept as HTML reaches the output byte for byte, whatever is around it; registered as a block it stands apart,
    with a blank line before it and after it. [n] is the element after the preparation of the document. *)
Theorem c72_html_kept : forall sort, sorts sort -> forall m us x t html url doc out n,
  (forall d, n <> Text d) -> node_name n = x -> ~ In x (b "#document" :: plain_names) -> tidy_html (html n) ->
  stands_in n (prepared sort (keeping x t html m us) url doc) -> converts (convert_node sort (keeping x t html m us) url doc) out ->
  infix (html n) out /\ (t = TBlock -> apart (html n) out).
Proof. exact html_kept. Qed.
Print Assumptions c72_html_kept.
(** The hypotheses are met: an iframe (which the base plugin would remove) between two paragraphs *)
Definition c72_node : node := Elem (b "iframe") [(b "src", b "/a_b")] [].
Definition c72_html (n : node) : bytes := b "<iframe src='/a_b'>" ++ [10; 10] ++ b "</iframe>".
Definition c72_doc : node := Doc [Elem (b "html") [] [Elem (b "body") []
  [Elem (b "p") [] [Text (b "a_b")]; Elem (b "div") [] [c72_node]; Text (b "*c*")]]].
Example c72_example :
  stands_in c72_node (prepared stable_sort (keeping (b "iframe") TBlock c72_html Smart default_uses) (fun _ u => u) c72_doc)
  /\ tidy_html (c72_html c72_node) /\ ~ In (b "iframe") (b "#document" :: plain_names)
  /\ converts (convert_node stable_sort (keeping (b "iframe") TBlock c72_html Smart default_uses) (fun _ u => u) c72_doc)
       (b "a\_b" ++ [10; 10] ++ b "<iframe src='/a_b'>" ++ [10; 10] ++ b "</iframe>" ++ [10; 10] ++ b "\*c*").
Proof.
  split; [|split; [|split]].
  - replace (prepared _ _ _ _) with c72_doc by (vm_compute; reflexivity).
    eapply stands_doc; [left; reflexivity|]. eapply stands_elem; [now left|left; reflexivity|].
    eapply stands_elem; [now right; left|right; left; reflexivity|]. eapply stands_elem; [now do 2 right; left|left; reflexivity|apply stands_here].
  - assert (F : forall c, In c (c72_html c72_node) -> c < 128 /\ c <> 7) by (apply Forall_forall; vm_compute; repeat constructor; discriminate).
    split; [eexists (b "iframe src='/a_b'>" ++ [10; 10] ++ b "</iframe"); reflexivity|]. split; [intros I; now apply F in I|].
    split; [|split].
    + intros (u & v & E). assert (I : In 239 (c72_html c72_node)) by (rewrite E; apply in_app_iff; right; now left). now apply F in I.
    + intros (u & p & q & v & E). apply (f_equal (count_occ N.eq_dec)) in E. apply (f_equal (fun f => f 10)) in E.
      rewrite !count_occ_app in E. vm_compute (count_occ _ (c72_html _) _) in E. cbn [count_occ] in E. destruct (N.eq_dec 10 10) as [_|X]; [|now elim X]. 
      repeat (rewrite <- plus_n_Sm in E || rewrite PeanoNat.Nat.add_succ_l in E || rewrite PeanoNat.Nat.add_0_l in E). discriminate E.
    + intros k (u & v & E). destruct (in_split 32 (c72_html c72_node)) as (a & z & _); [vm_compute; tauto|].
      apply (f_equal (count_occ N.eq_dec)) in E. apply (f_equal (fun f => f 32)) in E.
      rewrite !count_occ_app in E. vm_compute (count_occ _ (c72_html _) _) in E. cbn [count_occ] in E. destruct (N.eq_dec 32 32) as [_|X]; [|now elim X].
      repeat (rewrite <- plus_n_Sm in E || rewrite PeanoNat.Nat.add_succ_l in E || rewrite PeanoNat.Nat.add_0_l in E). discriminate E.
  - intros I. repeat (destruct I as [I|I]; [discriminate I|]). destruct I.
  - vm_compute. reflexivity.
Qed.
(** The output is not always the HTML of the element: two blank lines in a row (say, in a pre) lose one. *)
Theorem c72_blank_lines_refuted : exists html n doc out,
  html n = b "<pre>a" ++ [10; 10; 10] ++ b "b</pre>" /\ n = Elem (b "pre") [] [Text (b "a" ++ [10; 10; 10] ++ b "b")]
  /\ stands_in n (prepared stable_sort (keeping (b "pre") TBlock html Smart default_uses) (fun _ u => u) doc)
  /\ converts (convert_node stable_sort (keeping (b "pre") TBlock html Smart default_uses) (fun _ u => u) doc) out
  /\ out = b "<pre>a" ++ [10; 10] ++ b "b</pre>" /\ ~ infix (html n) out.
Proof.
  exists (fun _ => b "<pre>a" ++ [10; 10; 10] ++ b "b</pre>"), (Elem (b "pre") [] [Text (b "a" ++ [10; 10; 10] ++ b "b")]),
    (Doc [Elem (b "pre") [] [Text (b "a" ++ [10; 10; 10] ++ b "b")]]). eexists.
  split; [reflexivity|]. split; [reflexivity|]. split; [|split; [vm_compute; reflexivity|split; [reflexivity|]]].
  1: replace (prepared _ _ _ _) with (Doc [Elem (b "pre") [] [Text (b "a" ++ [10; 10; 10] ++ b "b")]]) by (vm_compute; reflexivity).
  - eapply stands_doc; [left; reflexivity|apply stands_here].
  - intros (u & v & E). apply (f_equal (@List.length N)) in E. rewrite !app_length in E. cbn in E.
    repeat rewrite <- plus_n_Sm in E. discriminate E.
Qed.
Print Assumptions c72_blank_lines_refuted.

(** The start tag and the end tag of an element whose content is converted (RenderAsHTMLWrapper) reach the output. *)
Theorem c72_wrapper_tags_partial : forall sort, sorts sort -> forall m us x t url doc out n,
  (forall d, n <> Text d) -> node_name n = x -> ~ In x (b "#document" :: plain_names) -> Forall tag_char x ->
  stands_in n (prepared sort (wrapping x t m us) url doc) -> converts (convert_node sort (wrapping x t m us) url doc) out ->
  infix (b "<" ++ x ++ b ">") out /\ infix (b "</" ++ x ++ b ">") out.
Proof. exact wrapper_kept. Qed.
Print Assumptions c72_wrapper_tags_partial.
(** The attributes do not, and the tags do not stand apart, although the element is a block: the text before the element and its
    start tag are one paragraph. *)
Theorem c72_wrapper_refuted : exists doc out,
  doc = Doc [Text (b "a"); Elem (b "center") [(b "id", b "k")] [Text (b "c")]; Text (b "d")]
  /\ converts (convert_node stable_sort (wrapping (b "center") TBlock Smart default_uses) (fun _ u => u) doc) out
  /\ out = b "a<center>" ++ [10; 10] ++ b "c" ++ [10; 10] ++ b "</center>d".
Proof. eexists. eexists. split; [reflexivity|]. split; [vm_compute; reflexivity|reflexivity]. Qed.
Print Assumptions c72_wrapper_refuted.

(** An element registered with RenderAsPlaintextWrapper is rendered as one that no renderer knows, whatever other renderers there
    are. *)
Theorem c72_plain_wrapper : forall e rec c anc n hs,
  try_renderers e (render_as_plaintext_wrapper :: hs) rec c anc n = try_renderers e [] rec c anc n.
Proof. exact plain_wrapper. Qed.
Print Assumptions c72_plain_wrapper.
Example c72_plain_example :
  let e := env_of stable_sort empty_converter (fun _ u => u) in
  try_renderers e [render_as_plaintext_wrapper; strike_render (b "~~")] (fun _ _ _ => Done (b "x")) [] [] (Elem (b "del") [] [Text (b "y")]) = Done (b "x")
  /\ try_renderers e [render_as_plaintext_wrapper] (fun _ _ _ => Done (b "x")) [] [] (Elem (b "div") [] [Text (b "y")]) = Done ([10; 10] ++ b "x" ++ [10; 10]).
Proof. split; reflexivity. Qed.
