(** Induction principle for rendering with the bundled plugins: a relation between the visible text of a node and its rendered
    text that every textual step keeps holds for every node; rendering needs no more fuel than the height of the tree. *)
From Coq Require Import List NArith ZArith Bool String Lia.
From Verif Require Import Bytes BytesFacts TextUtils RenderText Escape Dom DomUtils Engine CommonMark Table SpecDom.
Import ListNotations.
Open Scope N_scope.
Open Scope list_scope.

Section node_induction.
Variable P : node -> Prop.
Hypothesis Htext : forall d, P (Text d).
Hypothesis Helem : forall x a ks, Forall P ks -> P (Elem x a ks).
Hypothesis Hcomment : forall d, P (Comment d).
Hypothesis Hdoc : forall ks, Forall P ks -> P (Doc ks).
Hypothesis Hother : forall d, P (Other d).
Fixpoint node_induction (n : node) : P n :=
  let go := fix go (l : list node) : Forall P l :=
    match l with [] => Forall_nil P | x :: r => Forall_cons x (node_induction x) (go r) end in
  match n with
  | Text d => Htext d
  | Elem x a ks => Helem x a ks (go ks)
  | Comment d => Hcomment d
  | Doc ks => Hdoc ks (go ks)
  | Other d => Hother d
  end.
End node_induction.

Definition max_height (ks : list node) : nat := fold_right (fun k h => Nat.max (height k) h) O ks.
Lemma height_pos : forall n, (1 <= height n)%nat.
Proof. destruct n; simpl; lia. Qed.
Lemma height_kids : forall n k, In k (kids n) -> (S (height k) <= height n)%nat.
Proof.
  assert (K : forall ks k, In k ks -> (height k <= fold_right (fun k h => Nat.max (height k) h) O ks)%nat).
  { induction ks; simpl; intros k []. subst; lia. specialize (IHks _ H). lia. }
  destruct n; simpl; intros k I; try contradiction; apply le_n_S; now apply K.
Qed.

(** Entries below an entry: their nodes are below its node. *)
Lemma descendants_elem : forall p anc x a ks, descendants p anc (Elem x a ks)
  = List.concat (map (fun ik => {| e_path := fst ik :: p; e_anc := x :: anc; e_node := snd ik |}
                       :: descendants (fst ik :: p) (x :: anc) (snd ik)) (combine (seq 0 (List.length ks)) ks)).
Proof.
  intros. simpl. generalize O as i. induction ks as [|k ks IH]; intros i; simpl; auto. now rewrite IH.
Qed.
Lemma descendants_doc : forall p anc ks, descendants p anc (Doc ks)
  = List.concat (map (fun ik => {| e_path := fst ik :: p; e_anc := b "#document" :: anc; e_node := snd ik |}
                       :: descendants (fst ik :: p) (b "#document" :: anc) (snd ik)) (combine (seq 0 (List.length ks)) ks)).
Proof.
  intros. simpl. generalize O as i. induction ks as [|k ks IH]; intros i; simpl; auto. now rewrite IH.
Qed.
Lemma in_combine_seq : forall A (ks : list A) i k s, In (i, k) (combine (seq s (List.length ks)) ks) -> In k ks.
Proof. intros. now apply in_combine_r in H. Qed.
Lemma below_forall : forall (Q : node -> Prop), (forall n, Q n -> Forall Q (kids n)) ->
  forall n p anc x, In x (descendants p anc n) -> Q n -> Q (e_node x) /\ (S (height (e_node x)) <= height n)%nat.
Proof.
  intros Q HQ n. induction n using node_induction; intros p anc y I Qn; try contradiction.
  - rewrite descendants_elem in I. apply in_concat in I as (l & Il & I). apply in_map_iff in Il as ((i & k) & E & Ik). subst l.
    apply in_combine_r in Ik. pose proof (height_kids (Elem x a ks) k Ik) as Hk. pose proof (HQ _ Qn) as Fk. simpl in Fk.
    rewrite Forall_forall in Fk. specialize (Fk k Ik). simpl in I. destruct I as [<- | I]; [split; auto|].
    rewrite Forall_forall in H. destruct (H k Ik _ _ _ I Fk). split; auto. lia.
  - rewrite descendants_doc in I. apply in_concat in I as (l & Il & I). apply in_map_iff in Il as ((i & k) & E & Ik). subst l.
    apply in_combine_r in Ik. pose proof (height_kids (Doc ks) k Ik) as Hk. pose proof (HQ _ Qn) as Fk. simpl in Fk.
    rewrite Forall_forall in Fk. specialize (Fk k Ik). simpl in I. destruct I as [<- | I]; [split; auto|].
    rewrite Forall_forall in H. destruct (H k Ik _ _ _ I Fk). split; auto. lia.
Qed.

Lemma below_trans : forall n p anc x y, In x (descendants p anc n) -> In y (descendants (e_path x) (e_anc x) (e_node x)) -> In y (descendants p anc n).
Proof.
  intros n. induction n using node_induction; intros p anc y z I J; try contradiction.
  - rewrite descendants_elem in *. apply in_concat in I as (l & Il & I). apply in_map_iff in Il as ((i & k) & E & Ik). subst l.
    apply in_concat. eexists. split. apply in_map_iff. exists (i, k). split; [reflexivity | exact Ik].
    apply in_combine_r in Ik. simpl in *. right. destruct I as [<- | I]; auto.
    rewrite Forall_forall in H. eapply H; eauto.
  - rewrite descendants_doc in *. apply in_concat in I as (l & Il & I). apply in_map_iff in Il as ((i & k) & E & Ik). subst l.
    apply in_concat. eexists. split. apply in_map_iff. exists (i, k). split; [reflexivity | exact Ik].
    apply in_combine_r in Ik. simpl in *. right. destruct I as [<- | I]; auto.
    rewrite Forall_forall in H. eapply H; eauto.
Qed.
Lemma in_entries : forall (ks : list node) s k, In k ks -> exists i, In (i, k) (combine (seq s (List.length ks)) ks).
Proof. induction ks as [|j ks IH]; intros s k I; [destruct I|]. cbn [List.length seq combine]. destruct I as [->|I]; [exists s; now left|]. destruct (IH (S s) k I) as (i & J). exists i. now right. Qed.
Lemma below_free : forall names n p anc, name_in names (node_name n) = false ->
  Forall (fun x => name_in names (node_name (e_node x)) = false) (descendants p anc n) -> free_of names n = true.
Proof.
  intros names n. induction n using node_induction; intros p anc N F; auto; cbn [free_of].
  - cbn [node_name] in N. rewrite N. cbn [negb andb]. apply forallb_forall. intros k Ik. rewrite descendants_elem in F. rewrite Forall_forall in H, F.
    destruct (in_entries ks 0 k Ik) as (i & Ii).
    assert (G : forall y, In y ({| e_path := i :: p; e_anc := x :: anc; e_node := k |} :: descendants (i :: p) (x :: anc) k) -> name_in names (node_name (e_node y)) = false).
    { intros y Iy. apply F. apply in_concat. eexists. split; [|exact Iy]. apply in_map_iff. exists (i, k). split; [reflexivity|exact Ii]. }
    apply (H k Ik (i :: p) (x :: anc)); [apply (G {| e_path := i :: p; e_anc := x :: anc; e_node := k |}); now left|]. apply Forall_forall. intros y Iy. apply G. now right.
  - apply forallb_forall. intros k Ik. rewrite descendants_doc in F. rewrite Forall_forall in H, F. destruct (in_entries ks 0 k Ik) as (i & Ii).
    assert (G : forall y, In y ({| e_path := i :: p; e_anc := b "#document" :: anc; e_node := k |} :: descendants (i :: p) (b "#document" :: anc) k) -> name_in names (node_name (e_node y)) = false).
    { intros y Iy. apply F. apply in_concat. eexists. split; [|exact Iy]. apply in_map_iff. exists (i, k). split; [reflexivity|exact Ii]. }
    apply (H k Ik (i :: p) (b "#document" :: anc)); [apply (G {| e_path := i :: p; e_anc := b "#document" :: anc; e_node := k |}); now left|]. apply Forall_forall. intros y Iy. apply G. now right.
Qed.

Lemma heading_level_range : forall x, (1 <= heading_level x <= 6)%nat.
Proof. intros. unfold heading_level. repeat (destruct (beqb _ _); [lia|]). lia. Qed.

Section invariant.
Variable e : env.
Variable ts : list text_handler.
(** the relation between letters and rendered text, and what is known about nodes, options and delimiters; [own] are marks that
    elements of a name leave among the letters; when [strikes], struck text leaves no marks of what is inside it *)
Variable strikes : bool.
Variable letter : N -> bool.
Variable own : bytes -> bytes.
Variable R : bytes -> bytes -> Prop.
(** what is known about the cells and the caption of a table *)
Variables Rcell Rcap : bytes -> Prop.
Variable allow_panic : Prop.
Variable ok_node : node -> Prop.
Variable ok_cfg : config -> Prop.
Variable ok_delim : bytes -> Prop.
Variable tables : Prop.
Definition shielded (x : bytes) : bool := strikes && name_in strike_names x.
Fixpoint vis (n : node) : bytes :=
  match n with
  | Text d => filter letter d
  | Elem x _ ks => own x ++ (if shielded x then filter letter (flat_map vis ks) else flat_map vis ks)
  | Doc ks => flat_map vis ks
  | _ => []
  end.
Definition below_vis (n : node) : bytes := flat_map vis (kids n).
Lemma vis_nil : (forall c, letter c = false) -> (forall x, own x = []) -> forall n, vis n = [].
Proof.
  intros L O n. assert (K : forall ks, Forall (fun n => vis n = []) ks -> flat_map vis ks = []).
  { intros ks F. induction F as [|k ks Hk F IH]; simpl; auto. now rewrite Hk, IH. }
  induction n using node_induction; simpl; auto.
  - induction d; simpl; auto. now rewrite L.
  - rewrite O, (K ks H). now destruct (shielded x).
Qed.

Record closed : Prop := {
  cl_kids : forall n, ok_node n -> Forall ok_node (kids n);
  cl_void : forall n, ok_node n -> name_in [b "hr"; b "br"; b "img"] (node_name n) = true -> below_vis n = [];
  cl_own : forall x l t, R l t -> R (own x ++ l) t;
  cl_nil : R [] [];
  cl_app : forall l1 l2 x y, R l1 x -> R l2 y -> R (l1 ++ l2) (x ++ y);
  cl_nl : R [] [cNL; cNL];
  cl_text : forall d c, ok_node (Text d) -> R (vis (Text d)) (fold_left (fun s t => t e c s) ts d);
  cl_strong : forall cfg l x, ok_cfg cfg -> R l x -> R l (emphasis_text (strong_delimiter cfg) x);
  cl_em : forall cfg l x, ok_cfg cfg -> R l x -> R l (emphasis_text (em_delimiter cfg) x);
  cl_strike : forall d l x, ok_delim d -> R l x -> R l (emphasis_text d x);
  cl_divider : forall cfg, ok_cfg cfg -> R (own (b "hr") ++ []) (divider_text (horizontal_rule cfg));
  cl_break : R [] break_text;
  cl_list : forall cfg n ul start ls items, ok_cfg cfg -> ok_node n -> is_list_name (node_name n) = true -> Forall2 R ls items ->
    R (own (node_name n) ++ List.concat ls) (list_text (unescape_fn e) ul (bullet_marker cfg) start items);
  cl_block_code : forall cfg n, ok_cfg cfg -> ok_node n -> node_name n = b "pre" ->
    R (vis n) (block_code_text (code_fence_opt cfg) (code_info n) (code_text n));
  cl_inline_code : forall n, ok_node n -> name_in inline_code_names (node_name n) = true -> R (vis n) (inline_code_text (code_text n));
  cl_quote : forall l x, R l x -> R (own (b "blockquote") ++ l) (blockquote_text x);
  cl_heading : forall setext level n x, (exists cfg, ok_cfg cfg) -> (1 <= level <= 6)%nat -> ok_node n ->
    name_in heading_names (node_name n) = true -> R (below_vis n) x ->
    match heading_text setext level x with Some t => R (own (node_name n) ++ below_vis n) t | None => allow_panic end;
  cl_image : forall n, ok_node n ->
    R [] (image_text (assemble_url e (b "img") (trim_space (node_attr n (b "src") []))) (node_attr n (b "title") [])
                     (node_attr n (b "alt") []));
  cl_link : forall cfg n l x t, ok_cfg cfg -> ok_node n -> R l x ->
    link_text cfg (assemble_url e (b "a") (trim_space (node_attr n (b "href") []))) (node_attr n (b "title") []) x = Some t -> R l t;
  cl_comment : R [] (end_comment_text end_comment_data);
  cl_cell : tables -> forall l x, R l x -> Rcell (cell_text e x);
  cl_cell_nil : tables -> Rcell [];
  cl_cell_break : tables -> forall x, Rcell x -> Rcell (replace_all [cNL] (b "<br />") x);
  cl_cap : tables -> forall k x, ok_node k -> free_of problematic_kids k = true -> R (vis k) x -> Rcap (trim_space x);
  cl_table : tables -> forall n tcfg aligns rows cap, ok_node n -> node_name n = b "table" -> Forall (Forall Rcell) rows ->
    (match cap with Some s => Rcap s | None => True end) -> R (vis n) (table_text tcfg aligns rows cap);
  cl_shield : strikes = true -> forall d nm l x, ok_delim d -> R l x -> R (own nm ++ filter letter l) (emphasis_text d x)
}.
Hypothesis C : closed.

Inductive bundled : renderer -> Prop :=
| B_commonmark : forall cfg, ok_cfg cfg -> bundled (commonmark_render cfg)
| B_strike : forall d, ok_delim d -> bundled (strike_render d)
| B_table : forall tcfg, tables -> bundled (table_render tcfg).
Variable hs : list renderer.
Hypothesis Hhs : Forall bundled hs.
Definition striking (l : list renderer) : Prop := strikes = true -> exists d, ok_delim d /\ In (strike_render d) l.
Hypothesis Hst : striking hs.

Definition good (l : bytes) (r : res bytes) : Prop :=
  match r with Done x => R l x | Panic => allow_panic | OutOfFuel => False end.
(** a renderer gives up without writing or writes something related *)
Definition good_try (l : bytes) (r : res (bool * bytes)) : Prop :=
  match r with
  | Done (true, x) => R l x
  | Done (false, x) => x = []
  | Panic => allow_panic
  | OutOfFuel => False
  end.
Definition good_rec (rec : render_fn) (n : node) : Prop :=
  forall c anc k, ok_node k -> (S (height k) <= height n)%nat -> good (vis k) (rec c anc k).

Lemma good_bind : forall l r f, good l r -> (forall x, R l x -> good_try l (f x)) -> good_try l (bind r f).
Proof. intros l r f G H. destruct r; simpl in *; auto. Qed.
Lemma vis_elem : forall x a ks, shielded x = false -> vis (Elem x a ks) = own x ++ below_vis (Elem x a ks).
Proof. intros x a ks H. cbn [vis]. now rewrite H. Qed.
(** from the children to the node *)
Lemma good_own : forall n r, (forall d, n <> Text d) -> shielded (node_name n) = false -> good (below_vis n) r -> good (vis n) r.
Proof.
  intros n r H Sh G. destruct r; simpl in *; auto. destruct n; auto. exfalso; now apply (H data). rewrite vis_elem by auto. now apply (cl_own C).
Qed.
Lemma try_own : forall n r, (forall d, n <> Text d) -> shielded (node_name n) = false -> good_try (below_vis n) r -> good_try (vis n) r.
Proof.
  intros n r H Sh G. destruct r as [[[|] x]| |]; simpl in *; auto. destruct n; auto. exfalso; now apply (H data). rewrite vis_elem by auto. now apply (cl_own C).
Qed.

Lemma write_all_good : forall rec c anc ks n, good_rec rec n -> Forall ok_node ks ->
  (forall k, In k ks -> (S (height k) <= height n)%nat) -> good (flat_map vis ks) (write_all (map (rec c anc) ks)).
Proof.
  intros rec c anc ks n G F. induction F as [|k ks Ok F IH]; intros H; simpl. apply (cl_nil C).
  assert (Gk := G c anc k Ok (H k (or_introl eq_refl))). destruct (rec c anc k); simpl in *; auto.
  assert (Gr : good (flat_map vis ks) (write_all (map (rec c anc) ks))). { apply IH. intros; apply H; now right. }
  destruct (write_all _); simpl in *; auto. now apply (cl_app C).
Qed.
Lemma all_done_good : forall rec c anc ks n, good_rec rec n -> Forall ok_node ks ->
  (forall k, In k ks -> (S (height k) <= height n)%nat) ->
  match all_done (map (rec c anc) ks) with
  | Done items => Forall2 R (map vis ks) items
  | Panic => allow_panic
  | OutOfFuel => False
  end.
Proof.
  intros rec c anc ks n G F. induction F as [|k ks Ok F IH]; intros H; simpl. constructor.
  assert (Gk := G c anc k Ok (H k (or_introl eq_refl))). destruct (rec c anc k); simpl in *; auto.
  assert (Gr := IH (fun k I => H k (or_intror I))).
  destruct (all_done _); simpl in *; auto.
Qed.
Lemma kids_good : forall rec c anc n, good_rec rec n -> ok_node n -> good (below_vis n) (render_kids rec c anc n).
Proof.
  intros. unfold render_kids. apply write_all_good with (n := n); auto.
  - now apply (cl_kids C).
  - intros. now apply height_kids.
Qed.
Lemma fallback_good : forall rec c anc n, good_rec rec n -> ok_node n -> (forall d, n <> Text d) -> shielded (node_name n) = false -> good (vis n) (fallback e rec c anc n).
Proof.
  intros. apply good_own; auto. unfold fallback. pose proof (kids_good rec c anc n H H0) as G. destruct (render_kids rec c anc n); simpl in *; auto.
  destruct (is_block_type _); simpl; rewrite ?app_nil_r; auto.
  change (cNL :: cNL :: a ++ [cNL; cNL]) with ([cNL; cNL] ++ a ++ [cNL; cNL]).
  rewrite <- (app_nil_l (below_vis n)). apply (cl_app C). apply (cl_nl C).
  rewrite <- (app_nil_r (below_vis n)). apply (cl_app C); auto. apply (cl_nl C).
Qed.
Lemma elem_named : forall n l, shielded (node_name n) = false -> name_in l (node_name n) = true ->
  forallb (fun x => negb (beqb x (b "#text") || beqb x (b "#comment") || beqb x (b "#document") || beqb x (b "#doctype"))) l = true ->
  vis n = own (node_name n) ++ below_vis n.
Proof.
  intros n l Sh H F. unfold name_in in H. apply existsb_exists in H as (x & I & E). apply beqb_eq in E. rewrite forallb_forall in F.
  specialize (F x I). apply negb_true_iff in F. destruct n; auto; try (simpl in E; subst x; discriminate). now apply vis_elem.
Qed.
Lemma struck_name : forall n, name_in strike_names (node_name n) = true -> exists a ks, n = Elem (b "del") a ks \/ n = Elem (b "s") a ks \/ n = Elem (b "strike") a ks.
Proof.
  intros n H. unfold name_in in H. cbn [strike_names existsb] in H. rewrite !orb_true_iff in H. destruct n as [d|x a ks|d|ks|d]; cbn [node_name] in H;
    try (decompose [or] H; discriminate). exists a, ks. decompose [or] H; try discriminate; match goal with Q : beqb _ _ = true |- _ => apply beqb_eq in Q; subst x end; auto.
Qed.
Lemma commonmark_struck : forall cfg rec c anc n, name_in strike_names (node_name n) = true -> commonmark_render cfg e rec c anc n = Done (false, []).
Proof. intros cfg rec c anc n H. apply struck_name in H as (a & ks & [->|[->| ->]]); reflexivity. Qed.
Lemma table_struck : forall cfg rec c anc n, name_in strike_names (node_name n) = true -> table_render cfg e rec c anc n = Done (false, []).
Proof. intros cfg rec c anc n H. apply struck_name in H as (a & ks & [->|[->| ->]]); reflexivity. Qed.
Lemma commonmark_good : forall cfg rec c anc n, ok_cfg cfg -> good_rec rec n -> ok_node n -> (forall d, n <> Text d) ->
  good_try (vis n) (commonmark_render cfg e rec c anc n).
Proof.
  intros cfg rec c anc n Oc G On Nt. destruct (shielded (node_name n)) eqn:Sh.
  { rewrite commonmark_struck by (now apply andb_true_iff in Sh as []). reflexivity. }
  unfold commonmark_render.
  assert (KG : forall c, good (below_vis n) (render_kids rec c anc n)) by (intros; now apply kids_good).
  destruct (name_in (bold_names ++ italic_names) (node_name n)) eqn:E1.
  { apply try_own; auto. unfold render_bold_italic. apply good_bind with (l := below_vis n); auto. intros x Hx. simpl. unfold delimiter_of.
    destruct (name_in bold_names _) eqn:Eb. now apply (cl_strong C).
    destruct (name_in italic_names _) eqn:Ei. now apply (cl_em C).
    exfalso. unfold name_in in *. rewrite existsb_app, Eb, Ei in E1. discriminate. }
  clear E1.
  assert (V : forall x, In x [b "hr"; b "br"; b "img"] -> beqb (node_name n) x = true -> below_vis n = []).
  { intros x Ix Ex. apply (cl_void C); auto. unfold name_in. apply existsb_exists. eauto. }
  assert (One : forall x l, beqb (node_name n) x = true -> forallb (fun x => negb (beqb x (b "#text") || beqb x (b "#comment") || beqb x (b "#document") || beqb x (b "#doctype"))) [x] = true -> below_vis n = l -> vis n = own x ++ l).
  { intros x l E F <-. rewrite (elem_named n [x]); auto. now apply beqb_eq in E as ->. unfold name_in. simpl. now rewrite E. }
  destruct (beqb (node_name n) (b "hr")) eqn:E2.
  { simpl. rewrite (One (b "hr") []); auto. now apply (cl_divider C). apply (V (b "hr")); simpl; auto. }
  destruct (beqb (node_name n) (b "br")) eqn:E3.
  { apply try_own; auto. simpl. rewrite (V (b "br")); auto. now apply (cl_break C). simpl; auto. }
  destruct (is_list_name (node_name n)) eqn:E4.
  { unfold render_list.
    pose proof (all_done_good rec c (node_name n :: anc) (kids n) n G (cl_kids C n On) (fun k I => height_kids n k I)) as A.
    destruct (all_done _); cbn [bind] in *; auto.
    rewrite (elem_named n [b "ul"; b "ol"]); auto.
    - unfold below_vis. rewrite flat_map_concat_map. now apply (cl_list C).
    - unfold is_list_name in E4. unfold name_in. simpl. now rewrite orb_false_r. }
  destruct (beqb (node_name n) (b "pre")) eqn:E5.
  { simpl. apply (cl_block_code C); auto. now apply beqb_eq. }
  destruct (name_in inline_code_names (node_name n)) eqn:E6.
  { simpl. now apply (cl_inline_code C). }
  destruct (beqb (node_name n) (b "blockquote")) eqn:E7.
  { rewrite (One (b "blockquote") (below_vis n)); auto. unfold render_blockquote. pose proof (KG c) as G1.
    destruct (render_kids rec c anc n); cbn [good bind] in *; auto. now apply (cl_quote C). }
  destruct (name_in heading_names (node_name n)) eqn:E8.
  { rewrite (elem_named n heading_names); auto. unfold render_heading. pose proof (KG c) as G1.
    destruct (render_kids rec c anc n) as [x| |]; cbn [good bind] in *; auto.
    pose proof (heading_level_range (node_name n)) as Hl.
    pose proof (cl_heading C (beqb (heading_style cfg) (b "setext")) (heading_level (node_name n)) n x (ex_intro _ cfg Oc) Hl On E8 G1) as Hh.
    destruct (heading_text _ _ _); simpl; auto. }
  destruct (beqb (node_name n) (b "img")) eqn:E9.
  { apply try_own; auto. unfold render_image. destruct (is_empty _); simpl; auto. rewrite (V (b "img")); auto. now apply (cl_image C). simpl; auto. }
  destruct (beqb (node_name n) (b "a")) eqn:E10.
  { apply try_own; auto. unfold render_link. destruct (is_empty _ && _) eqn:Es; simpl; auto.
    apply good_bind with (l := below_vis n); auto. intros x Hx.
    destruct (link_text _ _ _ _) eqn:El; simpl; auto.
    eapply (cl_link C); eauto. }
  destruct (beqb (node_name n) (b "#comment")) eqn:E11; simpl; auto.
  destruct n; simpl; auto. destruct (beqb data end_comment_data) eqn:Ed; simpl; auto.
  assert (data = end_comment_data).
  { now apply beqb_eq. }
  subst. apply (cl_comment C).
Qed.

Lemma strike_good : forall d rec c anc n, ok_delim d -> good_rec rec n -> ok_node n -> (forall d, n <> Text d) ->
  good_try (vis n) (strike_render d e rec c anc n).
Proof.
  intros d rec c anc n Od G On Nt. unfold strike_render. destruct (name_in _ _) eqn:Nm; simpl; auto. destruct (shielded (node_name n)) eqn:Sh.
  { unfold render_bold_italic. pose proof (kids_good rec c anc n G On) as K. assert (V : vis n = own (node_name n) ++ filter letter (below_vis n)).
    { destruct n as [d0|x a ks|d0|ks|d0]; try discriminate. cbn [vis node_name] in *. now rewrite Sh. }
    rewrite V. apply andb_true_iff in Sh as [Sh _]. destruct (render_kids rec c anc n) as [x| |]; cbn [good bind good_try] in *; auto. now apply (cl_shield C Sh). }
  apply try_own; auto. apply good_bind with (l := below_vis n). now apply kids_good. intros x Hx. simpl. now apply (cl_strike C).
Qed.

(** tables *)
Definition cells_ok (rows : list (list bytes)) : Prop := Forall (Forall Rcell) rows.
Lemma forall_update : forall A (P : A -> Prop) f l i, Forall P l -> (forall x, P x -> P (f x)) -> Forall P (update i f l).
Proof.
  intros A P f l i F H. revert i. induction F; destruct i; simpl; auto.
Qed.
Lemma forall_grow : forall A (P : A -> Prop) l n d, Forall P l -> P d -> Forall P (grow l n d).
Proof. intros. unfold grow. apply Forall_app. split; auto. induction (n - List.length l)%nat; simpl; auto. Qed.
Lemma forall_firstn : forall A (P : A -> Prop) l n, Forall P l -> Forall P (firstn n l).
Proof. intros A P l n F. revert n. induction F; destruct n; simpl; auto. Qed.
Lemma forall_skipn : forall A (P : A -> Prop) l n, Forall P l -> Forall P (skipn n l).
Proof. intros A P l n F. revert n. induction F; destruct n; simpl; auto. Qed.
Lemma forall_insert : forall A (P : A -> Prop) l n v, Forall P l -> P v -> Forall P (insert_at n v l).
Proof. intros. unfold insert_at. apply Forall_app. split. now apply forall_firstn. constructor; auto. now apply forall_skipn. Qed.
Definition mod_ok (m : modification) : Prop := Rcell (snd m).
Lemma apply_mods_ok : forall ms rows, tables -> cells_ok rows -> Forall mod_ok ms -> cells_ok (fold_left apply_modification ms rows).
Proof.
  intros ms rows T Hr F. revert rows Hr. induction F as [|m ms Hm F IH]; intros rows Hr; simpl; auto.
  apply IH. destruct m as [[y x] d]. simpl in *. apply forall_update. apply forall_grow; auto.
  intros row Hrow. apply forall_insert; auto. apply forall_grow; auto. apply (cl_cell_nil C T).
Qed.
Lemma apply_grouped_ok : forall rows groups, tables -> cells_ok rows -> Forall (Forall mod_ok) groups -> cells_ok (apply_grouped rows groups).
Proof.
  intros rows groups T Hr Hg. unfold apply_grouped. apply Forall_rev in Hg. revert rows Hr.
  induction Hg as [|g gs Hg1 Hg IH]; intros rows Hr; simpl; auto. apply IH. now apply apply_mods_ok.
Qed.
Lemma forall_filter : forall A (P : A -> Prop) f l, Forall P l -> Forall P (filter f l).
Proof. intros A P f l F. induction F; simpl; auto. destruct (f x); auto. Qed.
Lemma remove_empty_ok : forall rows, cells_ok rows -> cells_ok (remove_empty_rows rows).
Proof.
  intros rows H. unfold remove_empty_rows. destruct rows as [|h r]; auto. inversion H; subst.
  assert (K : Forall (Forall Rcell) (h :: filter (fun x => negb (empty_row x)) r)). { constructor; auto. now apply forall_filter. }
  destruct (filter _ r); auto. destruct (empty_row h); auto. constructor.
Qed.
Lemma remove_first_ok : forall rows, cells_ok rows -> cells_ok (remove_first_if_empty rows).
Proof. intros rows H. unfold remove_first_if_empty. destruct rows; auto. destruct (empty_row _); auto. now inversion H. Qed.

Definition entry_ok (n : node) (x : entry) : Prop := ok_node (e_node x) /\ (S (height (e_node x)) <= height n)%nat.
Lemma below_ok : forall n x, In x (below {| e_path := []; e_anc := []; e_node := n |}) -> ok_node n -> entry_ok n x.
Proof. intros. eapply below_forall; eauto. apply (cl_kids C). Qed.

Lemma rendered_ok : forall rec c n xs, tables -> good_rec rec n -> Forall (entry_ok n) xs ->
  match all_done (map (fun x => rec c (e_anc x) (e_node x)) xs) with
  | Done l => Forall (fun x => exists v, R v x) l
  | Panic => allow_panic
  | OutOfFuel => False
  end.
Proof.
  intros rec c n xs T G F. induction F as [|x xs [O H] F IH]; simpl. constructor.
  pose proof (G c (e_anc x) (e_node x) O H) as Gx. destruct (rec c (e_anc x) (e_node x)); simpl in *; auto.
  destruct (all_done _); simpl in *; auto. constructor; eauto.
Qed.
Lemma in_below_below : forall n p anc x y, In x (descendants p anc n) -> In y (below x) -> ok_node n -> entry_ok n y.
Proof.
  intros n p anc x y Ix Iy O. destruct (below_forall ok_node (cl_kids C) n p anc x Ix O) as [Ox Hx].
  destruct (below_forall ok_node (cl_kids C) (e_node x) _ _ y Iy Ox) as [Oy Hy]. split; auto. lia.
Qed.
Definition row_ok (n : node) (x : entry) : Prop := Forall (entry_ok n) (below x).
Lemma collect_cells_ok : forall tcfg rec c n y row, tables -> good_rec rec n -> row_ok n row ->
  match collect_cells tcfg e rec c y row with
  | Done (cells, mods) => Forall Rcell cells /\ Forall mod_ok mods
  | Panic => allow_panic
  | OutOfFuel => False
  end.
Proof.
  intros tcfg rec c n y row T G Hr. unfold collect_cells.
  assert (Hc : Forall (entry_ok n) (cell_entries row)) by (apply forall_filter; auto).
  pose proof (rendered_ok rec c n (cell_entries row) T G Hc) as A. destruct (all_done _) as [l| |]; simpl in *; auto.
  assert (Fc : Forall Rcell (map (cell_text e) l)).
  { apply Forall_forall. intros z Iz. apply in_map_iff in Iz as (w & <- & Iw).
    rewrite Forall_forall in A. destruct (A w Iw) as (v & Rv). exact (cl_cell C T v w Rv). }
  split; auto. apply Forall_concat. apply Forall_forall. intros ms Im.
  apply in_map_iff in Im as ((x & cell & content) & <- & Ix).
  apply in_combine_r in Ix. apply in_combine_r in Ix.
  rewrite Forall_forall in Fc. specialize (Fc _ Ix).
  assert (Mc : Rcell (merged_content tcfg content)). { unfold merged_content. destruct (beqb _ _); auto. apply (cl_cell_nil C T). }
  unfold modifications. apply Forall_app. split.
  - apply Forall_forall. intros m Hm. apply in_map_iff in Hm as (dx & <- & _). exact Mc.
  - apply Forall_forall. intros m Hm. apply in_flat_map in Hm as (dy & _ & Hm). apply in_map_iff in Hm as (dx & <- & _). exact Mc.
Qed.
Lemma collect_rows_ok : forall tcfg rec c n header normal, tables -> good_rec rec n ->
  (match header with Some h => row_ok n h | None => True end) -> Forall (row_ok n) normal ->
  match collect_rows tcfg e rec c header normal with
  | Done rows => cells_ok rows
  | Panic => allow_panic
  | OutOfFuel => False
  end.
Proof.
  intros tcfg rec c n header normal T G Hh Hn. unfold collect_rows.
  set (l := _ ++ _).
  assert (L : Forall (fun r => match r with Done (cells, mods) => Forall Rcell cells /\ Forall mod_ok mods | Panic => allow_panic | OutOfFuel => False end) l).
  { unfold l. apply Forall_app. split.
    - destruct header; constructor; try constructor; simpl; auto. eapply collect_cells_ok; eauto.
    - apply Forall_forall. intros r Ir. apply in_map_iff in Ir as ((i & row) & <- & Ii). apply in_combine_r in Ii.
      simpl. eapply collect_cells_ok; eauto. rewrite Forall_forall in Hn. auto. }
  clearbody l. 
  assert (A : match all_done l with
              | Done x => Forall (Forall Rcell) (map fst x) /\ Forall (Forall mod_ok) (map snd x)
              | Panic => allow_panic | OutOfFuel => False end).
  { induction L as [|r l Hr L IH]; simpl. split; constructor.
    destruct r as [[cells mods]| |]; simpl in *; auto. destruct (all_done l); simpl in *; auto.
    destruct Hr, IH. split; constructor; auto. }
  destruct (all_done l) as [x| |]; simpl in *; auto. destruct A as [A1 A2].
  assert (Hg := apply_grouped_ok _ _ T A1 A2).
  assert (Hs : cells_ok (if skip_empty_rows tcfg then remove_empty_rows (apply_grouped (map fst x) (map snd x)) else apply_grouped (map fst x) (map snd x))).
  { destruct (skip_empty_rows tcfg); auto. now apply remove_empty_ok. }
  destruct (promote_first_row tcfg); auto. now apply remove_first_ok.
Qed.
Lemma find_in : forall A f (l : list A) x, find f l = Some x -> In x l.
Proof. intros. now apply find_some in H. Qed.
Lemma table_good : forall tcfg rec c anc n, tables -> good_rec rec n -> ok_node n -> (forall d, n <> Text d) ->
  good_try (vis n) (table_render tcfg e rec c anc n).
Proof.
  intros tcfg rec c anc n T G On Nt. destruct (shielded (node_name n)) eqn:Sh.
  { rewrite table_struck by (now apply andb_true_iff in Sh as []). reflexivity. }
  unfold table_render.
  destruct (beqb (node_name n) (b "table")) eqn:En.
  2:{ destruct (beqb (node_name n) (b "tr")); simpl; auto. apply try_own; auto. apply good_bind with (l := below_vis n). now apply kids_good.
      intros x Hx. simpl. change (cNL :: cNL :: x ++ [cNL; cNL]) with ([cNL; cNL] ++ x ++ [cNL; cNL]).
      rewrite <- (app_nil_l (below_vis n)). apply (cl_app C). apply (cl_nl C).
      rewrite <- (app_nil_r (below_vis n)). apply (cl_app C); auto. apply (cl_nl C). }
  apply beqb_eq in En. unfold render_table. set (table := {| e_path := []; e_anc := anc; e_node := n |}).
  destruct (_ && negb (convert_presentation tcfg)); simpl; auto.
  destruct (existsb (entry_is problematic_kids) (below table)) eqn:Pk; simpl; auto.
  destruct (existsb (name_in problematic_parents) anc); simpl; auto.
  set (header := header_row table). set (normal := normal_rows table header).
  assert (Hb : forall x, In x (below table) -> entry_ok n x).
  { intros x Ix. eapply below_forall; eauto. apply (cl_kids C). }
  assert (Ht : row_ok n table). { apply Forall_forall. exact Hb. }
  assert (Hrow : forall x, In x (table :: below table) -> row_ok n x).
  { intros x [<- | Ix]; auto. apply Forall_forall. intros y Iy. eapply in_below_below; eauto. }
  assert (Hin : match header with Some h => In h (table :: below table) | None => True end).
  { unfold header, header_row.
    set (by_th := match find (entry_is [b "th"]) (below table) with None => None | Some th => _ end).
    assert (Bt : match by_th with Some h => In h (table :: below table) | None => True end).
    { unfold by_th. destruct (find (entry_is [b "th"]) (below table)); auto.
      destruct (find (fun x => same_path _ _) _) eqn:Ef; auto. now apply find_in in Ef. }
    destruct (find (entry_is [b "thead"]) (below table)) as [thead|] eqn:Et; auto.
    destruct (find (entry_is [b "tr"]) (below thead)) as [tr|] eqn:Er; auto.
    apply find_in in Et. apply find_in in Er. right.
    clear - Et Er. unfold below in *. revert Et Er.
    intros. eapply below_trans; eauto. }
  assert (Hh : match header with Some h => row_ok n h | None => True end) by (destruct header; auto).
  assert (Hn : Forall (row_ok n) normal). { apply forall_filter. apply Forall_forall. exact Hrow. }
  pose proof (collect_rows_ok tcfg rec c n header normal T G Hh Hn) as A.
  destruct (collect_rows tcfg e rec c header normal) as [rows| |]; simpl in *; auto.
  destruct (is_empty rows); simpl; auto.
  assert (B : match handle_newlines tcfg rows with Some rows => cells_ok rows | None => True end).
  { unfold handle_newlines. destruct (beqb _ _).
    - apply Forall_forall. intros r Ir. apply in_map_iff in Ir as (r0 & <- & Ir). apply Forall_forall.
      intros x Ix. apply in_map_iff in Ix as (x0 & <- & Ix). apply (cl_cell_break C T).
      unfold cells_ok in A. rewrite Forall_forall in A. specialize (A _ Ir). rewrite Forall_forall in A. auto.
    - destruct (existsb (existsb _) rows); auto. }
  destruct (handle_newlines tcfg rows) as [rows'|]; simpl; auto.
  assert (K : match caption rec c table with Done (Some s) => Rcap s | Done None => True | Panic => allow_panic | OutOfFuel => False end).
  { unfold caption. destruct (find (entry_is [b "caption"]) (below table)) as [x|] eqn:Ec; auto.
    pose proof Ec as Ek. apply find_some in Ek as [_ Ek]. apply find_in in Ec. destruct (Hb x Ec) as [Ox Hx]. pose proof (G c (e_anc x) (e_node x) Ox Hx) as Gx.
    destruct (rec c (e_anc x) (e_node x)) as [s| |]; simpl in *; auto.
    destruct (is_empty (trim_space s)); auto. apply (cl_cap C T (e_node x)); auto. unfold entry_is, name_in in Ek. cbn [existsb] in Ek. rewrite orb_false_r in Ek. apply beqb_eq in Ek.
    apply (below_free problematic_kids (e_node x) (e_path x) (e_anc x)); [rewrite Ek; reflexivity|]. apply Forall_forall. intros y Iy.
    assert (Jy : In y (below table)) by exact (below_trans n [] anc x y Ec Iy). destruct (name_in problematic_kids (node_name (e_node y))) eqn:Ny; auto.
    assert (Q : existsb (entry_is problematic_kids) (below table) = true) by (apply existsb_exists; exists y; auto). congruence. }
  destruct (caption rec c table) as [cap| |]; simpl in *; auto.
  now apply (cl_table C T n).
Qed.

Lemma bundled_good : forall h rec c anc n, bundled h -> good_rec rec n -> ok_node n -> (forall d, n <> Text d) ->
  good_try (vis n) (h e rec c anc n).
Proof.
  intros h rec c anc n B. destruct B; intros; auto using commonmark_good, strike_good, table_good.
Qed.
Lemma try_good : forall l rec c anc n, Forall bundled l -> striking l -> good_rec rec n -> ok_node n -> (forall d, n <> Text d) ->
  good (vis n) (try_renderers e l rec c anc n).
Proof.
  intros l rec c anc n F St G O Nt. induction F as [|h l B F IH]; simpl.
  - apply fallback_good; auto. destruct (shielded (node_name n)) eqn:Sh; auto. apply andb_true_iff in Sh as [Sh _]. destruct (St Sh) as (d & _ & []).
  - pose proof (bundled_good h rec c anc n B G O Nt) as Hh.
    assert (Go : h e rec c anc n = Done (false, []) -> good (vis n) (try_renderers e l rec c anc n)).
    { intros E. destruct (shielded (node_name n)) eqn:Sh.
      - apply andb_true_iff in Sh as [Sh Nm]. apply IH. intros _. destruct (St Sh) as (d & Od & [->|I]); eauto.
        exfalso. unfold strike_render in E. rewrite Nm in E. destruct (render_kids rec c anc n); discriminate E.
      - clear IH St. induction F as [|h2 l B2 F IH2]; simpl; [now apply fallback_good|]. pose proof (bundled_good h2 rec c anc n B2 G O Nt) as H2.
        destruct (h2 e rec c anc n) as [[[|] x]| |]; simpl in *; auto. subst. destruct (try_renderers e l rec c anc n); simpl in *; auto. }
    destruct (h e rec c anc n) as [[[|] x]| |]; simpl in *; auto. subst. specialize (Go eq_refl).
    destruct (try_renderers e l rec c anc n); simpl in *; auto.
Qed.
Theorem render_inv : forall fuel c anc n, ok_node n -> (height n <= fuel)%nat -> good (vis n) (render e hs ts fuel c anc n).
Proof.
  induction fuel as [|f IH]; intros c anc n O H. { pose proof (height_pos n). lia. }
  assert (G : (forall d, n <> Text d) -> good (vis n) (try_renderers e hs (render e hs ts f) c anc n)).
  { intros Nt. apply try_good; auto. intros c0 anc0 k Ok Hk. apply IH; auto. lia. }
  destruct n; simpl; try (apply G; discriminate).
  now apply (cl_text C).
Qed.
End invariant.
Lemma no_strikes {P : Prop} : false = true -> P.
Proof. discriminate. Qed.
