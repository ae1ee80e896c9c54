(** Whole conversions keep UTF-8 valid (C62). *)
From Coq Require Import List NArith ZArith Bool String Lia ZifyBool ZifyNat ZifyN Permutation.
From Verif Require Import PanicFacts Bytes BytesFacts TextUtils RenderText Escape SpecEscape EscapeFacts EscapeFacts4 EscapeFacts6 SpecDom SpecText TextFacts TextFacts2 RenderFacts RenderFacts2 RenderFacts3
  RenderFacts4 RenderFacts5 Dom DomUtils Collapse Engine CommonMark Table SpecEngine EngineFacts RenderInv SpecPipeline PipelineFacts DomFacts DomFacts2 DomFacts3
  StrikeFacts LetterFacts LetterFacts2 SpecPlain PlainFacts2 PlainFacts4 EdgeFacts EdgeFacts2 EdgeFacts3 EdgeFacts4 EdgeFacts6 TreeInv SpecUtf8 Utf8Facts Utf8Facts2.
Import ListNotations.
Open Scope N_scope.
Open Scope list_scope.
Ltac asc := apply valid_ascii; repeat constructor; try lia; discriminate.

(** ** Trees *)
Definition heading (x : bytes) : bool := name_in heading_names x.
Definition elem8 (heads : bool) (x : bytes) (a : attrs) : bool := forallb (fun kv => validb (snd kv)) a && (heads || negb (heading x)).
Definition node8 (heads : bool) (n : node) : Prop := tree_ok validb (elem8 heads) n = true.
Lemma node8_elem heads x a ks : node8 heads (Elem x a ks) -> forallb (fun kv => validb (snd kv)) a = true /\ heads || negb (heading x) = true /\ Forall (node8 heads) ks.
Proof.
  unfold node8. cbn [tree_ok]. intros H. apply andb_true_iff in H as [H1 H2]. unfold elem8 in H1. apply andb_true_iff in H1 as [H1 H3]. repeat split; auto.
  apply Forall_forall. intros k I. rewrite forallb_forall in H2. now apply H2.
Qed.
Lemma node8_kids heads n : node8 heads n -> Forall (node8 heads) (kids n).
Proof.
  destruct n as [d|x a ks|d|ks|d]; intros H; cbn [kids]; try constructor; [now apply node8_elem in H|]. unfold node8 in H. cbn [tree_ok] in H. apply Forall_forall. intros k I.
  rewrite forallb_forall in H. now apply H.
Qed.
Lemma attr_valid a key : forallb (fun kv => validb (snd kv)) a = true -> valid (attr_or key [] a).
Proof.
  induction a as [|[x v] a IH]; intros H; [reflexivity|]. cbn [forallb] in H. apply andb_true_iff in H as [H1 H2]. cbn [attr_or]. destruct (beqb x key); auto. now apply validb_iff.
Qed.
Lemma node_attr_valid heads n key : node8 heads n -> valid (node_attr n key []).
Proof. destruct n as [d|x a ks|d|ks|d]; intros H; try reflexivity. apply node8_elem in H as (H & _). now apply attr_valid. Qed.
Lemma code_valid heads n : node8 heads n -> valid (code_text n).
Proof.
  assert (K : forall ks, Forall (fun n => node8 heads n -> valid (code_text n)) ks -> Forall (node8 heads) ks -> valid (flat_map code_text ks)).
  { induction 1 as [|k ks Hk F IH]; intros G; [apply valid_nil|]. inversion G; subst. cbn [flat_map]. apply valid_app; auto. }
  induction n as [d|x a ks IH|d|ks IH|d] using node_induction; intros H; cbn [code_text]; try apply valid_nil.
  - now apply validb_iff.
  - apply node8_elem in H as (_ & _ & H). destruct (name_in _ _); [apply valid_nil|]. apply valid_app; auto. destruct (name_in _ _); [asc|apply valid_nil].
  - apply node8_kids in H. auto.
Qed.
Lemma first_valid old s : old <> [] -> low_text old -> valid s -> valid (replace_first old [] s).
Proof.
  intros N L. assert (G : exists u v, s = u ++ v /\ (replace_first old [] s = s \/ exists v', v = old ++ v' /\ replace_first old [] s = u ++ v')).
  { induction s as [|c s IH].
    - exists [], []. split; auto. destruct old; cbn; auto.
    - cbn [replace_first]. destruct (has_prefix old (c :: s)) eqn:E.
      + exists [], (c :: s). split; auto. right. exists (skipn (List.length old) (c :: s)). split; auto. apply has_prefix_iff in E as (r & E). rewrite E. f_equal.
        clear. induction old; auto.
      + destruct IH as (u & v & E1 & [E2|(v' & E2 & E3)]).
        * exists [], (c :: s). split; auto. left. now rewrite E2.
        * exists (c :: u), v. split; [cbn [app]; congruence|]. right. exists v'. split; auto. cbn [app]. congruence. }
  destruct G as (u & v & E & [->|(v' & Ev & ->)]); auto. intros H. rewrite E in H. subst v. apply valid_cut in H as [H1 H2].
  - apply valid_app; auto. apply valid_rest in H2; auto. now apply valid_ascii.
  - destruct old as [|c old]; [congruence|]. inversion L; subst. cbn. now left.
Qed.
Lemma language_valid class : valid class -> valid (code_language class).
Proof.
  intros H. unfold code_language. assert (F : Forall valid (split_on cSP class)) by (apply valid_split; auto; unfold cSP; lia).
  induction F as [|x l Hx F IH]; [reflexivity|]. cbn [first_language]. destruct (_ || _); auto.
  apply first_valid; [discriminate|repeat constructor; lia|]. apply first_valid; [discriminate|repeat constructor; lia|auto].
Qed.
Lemma languages_valid heads n : node8 heads n -> Forall valid (code_languages n).
Proof.
  assert (K : forall ks, Forall (fun n => node8 heads n -> Forall valid (code_languages n)) ks -> Forall (node8 heads) ks -> Forall valid (flat_map code_languages ks)).
  { induction 1 as [|k ks Hk F IH]; intros G; [constructor|]. inversion G; subst. cbn [flat_map]. apply Forall_app. auto. }
  induction n as [d|x a ks IH|d|ks IH|d] using node_induction; intros H; cbn [code_languages]; try constructor.
  - apply node8_elem in H as (A & _ & H). apply Forall_app. split; [destruct (name_in _ _); constructor; [|constructor]; now apply language_valid, attr_valid|].
    destruct (name_in _ _); [constructor|auto].
  - apply node8_kids in H. auto.
Qed.
Lemma info_valid heads n : node8 heads n -> valid (code_info n).
Proof.
  intros H. apply languages_valid in H. unfold code_info. destruct (filter _ _) as [|x l] eqn:E; [reflexivity|]. cbn [hd].
  assert (I : In x (filter (fun l => negb (is_empty l)) (code_languages n))) by (rewrite E; now left). apply filter_In in I as [I _]. rewrite Forall_forall in H. auto.
Qed.

(** ** The renderers *)
Definition cfg8 (c : config) : Prop :=
  valid (em_delimiter c) /\ valid (strong_delimiter c) /\ valid (horizontal_rule c) /\ valid (bullet_marker c) /\ hd 96 (code_fence_opt c) < 128.
Section closed8.
Variables (e : env) (ts : list text_handler).
Hypothesis Hun : forall s, unescape_fn e s = s \/ unbelled s (unescape_fn e s).
Hypothesis Hts : forall d c, valid d -> valid (fold_left (fun s t => t e c s) ts d).
Hypothesis Hurl : forall tag raw, valid raw -> valid (assemble_url e tag raw).
Lemma valid_un x : valid x -> valid (unescape_fn e x).
Proof. intros H. destruct (Hun x) as [->|U]; auto. eapply valid_edits; [apply unbelled_edits; exact U|auto]. Qed.
Lemma url_valid heads n tag key : node8 heads n -> valid (assemble_url e tag (trim_space (node_attr n key []))).
Proof. intros P. eapply Hurl, valid_trim, node_attr_valid, P. Qed.
Lemma divider_valid cfg : cfg8 cfg -> valid (divider_text (horizontal_rule cfg)).
Proof. intros (_ & _ & H & _). unfold divider_text. apply (valid_app [cNL; cNL]); [asc|]. apply valid_app; [auto|asc]. Qed.
(** without headings, with any plugin *)
Lemma closed_plain : closed e ts false (fun _ => false) (fun _ => []) (fun _ x => valid x) valid valid True (node8 false) cfg8 valid True.
Proof.
  assert (V : forall n, vis false (fun _ => false) (fun _ => []) n = []) by now apply vis_nil.
  split; auto.
  - apply node8_kids.
  - intros n _ _. unfold below_vis. induction (kids n); simpl; auto. now rewrite V.
  - apply valid_nil.
  - intros. now apply valid_app.
  - asc.
  - intros d c H. apply Hts. now apply validb_iff.
  - intros cfg l x (_ & H & _). now apply valid_emphasis.
  - intros cfg l x (H & _). now apply valid_emphasis.
  - intros d l x H. now apply valid_emphasis.
  - apply divider_valid.
  - asc.
  - intros cfg n ul start ls items (_ & _ & _ & H & _) P N F. apply valid_list; auto; [apply valid_un|]. clear - F. induction F; constructor; auto.
  - intros cfg n (_ & _ & _ & _ & H) P N. apply valid_block; auto; [eapply info_valid; eauto|eapply code_valid; eauto].
  - intros n P N. apply valid_inline. eapply code_valid; eauto.
  - intros l x. apply valid_quote.
  - intros setext level n x _ _ P N H. exfalso. destruct n as [d|nm a ks|d|ks|d]; try discriminate. apply node8_elem in P as (_ & P & _). unfold heading in P. cbn [node_name] in N. rewrite N in P. discriminate.
  - intros n P. apply valid_image; [eapply url_valid; eauto| |]; eapply node_attr_valid; eauto.
  - intros cfg n l x t _ P H E. eapply valid_link; [| | |exact E]; auto; [eapply url_valid; eauto|eapply node_attr_valid; eauto].
  - asc.
  - intros _ l x H. unfold cell_text. apply valid_un. eapply valid_edits; [apply rebelled_edits, replace_rebelled|]. now apply valid_trim.
  - intros _. apply valid_nil.
  - intros _ x H. unfold cNL. apply valid_swap; auto; [lia|asc].
  - intros _ k x _ _ H. now apply valid_trim.
  - intros _ n tcfg aligns rows cap _ _. apply valid_table.
  - discriminate.
Qed.
(** with headings *)
Lemma hash8_concat l : Forall hash8 l -> hash8 (List.concat l).
Proof. induction 1 as [|x l H F IH]; [apply hash8_none; now intros []|]. cbn [List.concat]. now apply hash8_app. Qed.
Lemma hash8_cells {A} (f : A -> bytes) l : (forall x, exists z, f x = z ++ [124]) -> hash8 (List.concat (map f l)).
Proof. intros H. apply hash8_concat, Forall_forall. intros y I. apply in_map_iff in I as (x & <- & _). destruct (H x) as (z & ->). apply hash8_last; visible. Qed.
Lemma hash8_row tcfg counts cells : hash8 (row_text tcfg counts cells).
Proof.
  unfold row_text. apply hash8_app; [destruct (is_empty cells); apply hash8_none; [now intros []|intros [J|[]]; discriminate]|]. apply hash8_cells. intros [n c]. cbn [fst snd]. unfold row_cell.
  eexists. rewrite !app_assoc. reflexivity.
Qed.
Lemma hash8_underline tcfg aligns counts : hash8 (underline_text tcfg aligns counts).
Proof.
  unfold underline_text. apply hash8_app; [destruct (is_empty counts); apply hash8_none; [now intros []|intros [J|[]]; discriminate]|]. apply hash8_cells. intros [n c]. cbn [fst snd]. unfold underline_cell.
  eexists. rewrite !app_assoc. reflexivity.
Qed.
Lemma hash8_nl : hash8 [cNL].
Proof. apply hash8_none. intros [J|[]]; discriminate. Qed.
Lemma hash8_table tcfg aligns rows cap : match cap with Some s => hash8 (cNL :: s) | None => True end -> hash8 (table_text tcfg aligns rows cap).
Proof.
  intros C. unfold table_text. cbv zeta. set (counts := max_counts rows). set (rs := map _ rows). clearbody counts rs.
  assert (N2 : hash8 [cNL; cNL]) by (apply (hash8_app [cNL] [cNL]); apply hash8_nl).
  apply (hash8_app [cNL; cNL]); auto. apply hash8_app; [apply hash8_row|]. apply hash8_app; [apply hash8_nl|]. apply hash8_app; [apply hash8_underline|]. apply hash8_app; [apply hash8_nl|].
  apply hash8_app; [|apply hash8_app; auto].
  - apply hash8_concat, Forall_forall. intros y I. apply in_map_iff in I as (x & <- & _). apply hash8_app; [apply hash8_row|apply hash8_nl].
  - destruct cap as [s|]; [apply (hash8_app [cNL] (cNL :: s)); auto; apply hash8_nl|apply hash8_none; now intros []].
Qed.
Lemma hash8_caption x : hash8 x -> hash8 (cNL :: trim_space x).
Proof.
  intros H. destruct (trim_space_spaces x) as (l & r & E & L & R). intros u w Eu W. destruct u as [|c u]; cbn [app] in Eu; [discriminate|]. injection Eu as <- Eu. rewrite Eu in E.
  destruct u as [|c u] using rev_ind; [exists [], 10; split; [reflexivity|lia]|]. clear IHu. destruct (H (l ++ u ++ [c]) (w ++ r)) as (z & d & Ez & Ld).
  - rewrite E. now rewrite <- !app_assoc.
  - apply Forall_app. split; auto. now apply spaces_ws.
  - rewrite app_assoc in Ez. apply app_inj_tail in Ez as [_ ->]. exists (10 :: u), d. split; auto.
Qed.
Lemma hash8_block fence info code : hd 96 fence <> 35 -> ~ ws_byte (hd 96 fence) -> hash8 (block_code_text fence info code).
Proof.
  intros N W. unfold block_code_text. cbv zeta. set (f := hd 96 fence) in *. set (cd := drop_last_newline code). unfold calculate_code_fence. set (k := Nat.max _ _).
  assert (K : exists k', k = S k') by (exists (pred k); unfold k; lia). destruct K as (k' & ->). rewrite !app_assoc, <- app_assoc. apply (hash8_tail _ _ f); auto.
  - rewrite in_app_iff. intros [J|[J|[J|[]]]]; try discriminate. apply repeat_spec in J. congruence.
  - apply in_app_iff. left. now left.
Qed.
Hypothesis Hhash : forall d c, hash8 (fold_left (fun s t => t e c s) ts d).
Variable strikes : bool.
Definition ok8 (n : node) : Prop := node8 true n /\ tidy n = true /\ headed strikes n = true.
Definition full_cfg (c : config) : Prop := cfg8 c /\ letter_cfg c /\ hd 96 (code_fence_opt c) <> 35 /\ ~ ws_byte (hd 96 (code_fence_opt c)).
Definition full_delim (d : bytes) : Prop := valid d /\ plain_delim d.
Definition rel8 (l x : bytes) : Prop := valid x /\ (~ In tok l -> hash8 x).
Definition cap8 (s : bytes) : Prop := valid s /\ hash8 (cNL :: s).
(** elements that may end in a number sign of their own *)
Definition open_names : list bytes := [b "ul"; b "ol"; b "h1"; b "h2"; b "h3"; b "h4"; b "h5"; b "h6"; b "blockquote"; b "hr"].
Definition open_tok (x : bytes) : bytes := if name_in open_names x then [tok] else [].
Lemma open_tok_name x : In tok (open_tok x) -> name_in open_names x = true.
Proof. unfold open_tok. destruct (name_in open_names x); [auto|intros []]. Qed.
Lemma open_name (P : bytes -> bool) x : forallb P open_names = true -> name_in open_names x = true -> P x = true.
Proof. intros S B. rewrite forallb_forall in S. unfold name_in at 1 in B. apply existsb_exists in B as (y & Iy & Ey). apply beqb_eq in Ey. subst y. auto. Qed.
Notation never := (fun _ : N => false).
Lemma free_no_open n : free_of problematic_kids n = true -> ~ In tok (vis strikes never open_tok n).
Proof.
  assert (Nf : forall l : bytes, ~ In tok (filter never l)) by (intros l I; apply filter_In in I as [_ I]; discriminate).
  assert (K : forall ks, Forall (fun n => free_of problematic_kids n = true -> ~ In tok (vis strikes never open_tok n)) ks -> forallb (free_of problematic_kids) ks = true ->
    ~ In tok (flat_map (vis strikes never open_tok) ks)).
  { intros ks H E I. apply in_flat_map in I as (k & Ik & I). rewrite Forall_forall in H. rewrite forallb_forall in E. exact (H k Ik (E k Ik) I). }
  induction n as [d|x a ks IH|d|ks IH|d] using node_induction; cbn [free_of vis]; intros E; try (now apply Nf); try (now apply K); try (now intros []).
  apply andb_true_iff in E as [E1 E2]. apply negb_true_iff in E1. rewrite in_app_iff. intros [I|I].
  - apply open_tok_name in I. apply (open_name (name_in problematic_kids)) in I; [congruence|reflexivity].
  - destruct (shielded strikes x); [now apply Nf in I|now apply (K ks) in I].
Qed.
Lemma closed_heads : closed e ts strikes never open_tok rel8 valid cap8 True ok8 full_cfg full_delim True.
Proof.
  assert (Own : forall x l t, In tok (open_tok x) -> valid t -> rel8 (open_tok x ++ l) t).
  { intros x l t I H. split; auto. intros N. exfalso. apply N. apply in_app_iff. auto. }
  assert (OwnH : forall x, name_in heading_names x = true -> In tok (open_tok x)).
  { intros x N. unfold open_tok. assert (S : forallb (fun y => name_in open_names y) heading_names = true) by reflexivity. rewrite forallb_forall in S.
    unfold name_in at 1 in N. apply existsb_exists in N as (y & Iy & Ey). apply beqb_eq in Ey. subst y. apply S in Iy. rewrite Iy. now left. }
  assert (Strike : forall d l l' x, full_delim d -> rel8 l x -> rel8 l' (emphasis_text d x)).
  { intros d l l' x [V P] [A _]. split; [now apply valid_emphasis|]. intros _. now apply hash8_emphasis. }
  split; try contradiction; auto.
  - intros n (T8 & T & P). apply node8_kids in T8. rewrite Forall_forall in *. intros k I. split; [auto|]. destruct n as [d|x a ks|d|ks|d]; cbn [kids] in I; try destruct I; split.
    + cbn [tidy] in T. apply andb_true_iff in T as [_ T]. rewrite forallb_forall in T. apply T in I. now apply andb_true_iff in I.
    + unfold headed in *. cbn [everywhere] in P. apply andb_true_iff in P as [_ P]. rewrite forallb_forall in P. auto.
    + cbn [tidy] in T. rewrite forallb_forall in T. apply T in I. now apply andb_true_iff in I.
    + unfold headed in *. cbn [everywhere] in P. apply andb_true_iff in P as [_ P]. rewrite forallb_forall in P. auto.
  - intros n (_ & T & _) N. destruct n as [d|x a ks|d|ks|d]; try reflexivity; try discriminate. cbn [tidy] in T. cbn [node_name] in N. unfold below_vis. cbn [kids].
    change (name_in childless x = true) in N. rewrite N in T. cbn [negb orb] in T. destruct ks; [reflexivity|discriminate].
  - intros x l t [H1 H2]. split; auto. intros N. apply H2. intros I. apply N, in_app_iff. auto.
  - split; [apply valid_nil|]. intros _. apply hash8_none. now intros [].
  - intros l1 l2 x y [A1 A2] [B1 B2]. split; [now apply valid_app|]. intros N. rewrite in_app_iff in N. apply hash8_app; auto.
  - split; [asc|]. intros _. apply hash8_none. intros [J|[J|[]]]; discriminate.
  - intros d c (H & _). split; [apply Hts; now apply validb_iff|auto].
  - intros cfg l x [(_ & H & _) [[_ P] _]] [A _]. split; [now apply valid_emphasis|]. intros _. now apply hash8_emphasis.
  - intros cfg l x [(H & _) [[P _] _]] [A _]. split; [now apply valid_emphasis|]. intros _. now apply hash8_emphasis.
  - intros d l x. apply Strike.
  - intros cfg [H _]. apply Own; [now left|now apply divider_valid].
  - split; [asc|]. intros _. apply hash8_none. intros [J|[J|[J|[]]]]; discriminate.
  - intros cfg n ul start ls items [(_ & _ & _ & H & _) _] P N F. apply Own.
    + unfold is_list_name in N. apply orb_true_iff in N as [N|N]; apply beqb_eq in N; rewrite N; now left.
    + apply valid_list; auto; [apply valid_un|]. clear - F. induction F as [|? ? ? ? [A _] F IH]; constructor; auto.
  - intros cfg n [(_ & _ & _ & _ & H) [_ [F1 F2]]] (P & _) N. split; [apply valid_block; auto; [eapply info_valid; eauto|eapply code_valid; eauto]|].
    intros _. now apply hash8_block.
  - intros n (P & _) _. split; [apply valid_inline; eapply code_valid; eauto|]. intros _. apply hash8_inline.
  - intros l x [A _]. apply Own; [now left|]. now apply valid_quote.
  - intros setext level n x _ _ (_ & _ & P) N [A B]. destruct (heading_text setext level x) as [t|] eqn:E; [|exact I]. apply Own.
    + now apply OwnH.
    + assert (Hx : hash8 x).
      { apply B. unfold below_vis. intros I. destruct n as [d|nm a ks|d|ks|d]; try discriminate. cbn [node_name kids] in *. rewrite headed_elem, N in P. cbn [negb orb] in P.
        apply andb_true_iff in P as [P _]. apply in_flat_map in I as (k & Ik & I). unfold sealeds in P. rewrite forallb_forall in P.
        refine (sealed_no_tok strikes never open_tok k eq_refl _ (P k Ik) I). intros y Iy. apply open_tok_name in Iy. split.
        - now apply (open_name (name_in block_like)) in Iy.
        - apply (open_name (fun y => negb (name_in strike_names y))) in Iy; [now apply negb_true_iff|reflexivity]. }
      pose proof (valid_heading setext level x A Hx) as G. now rewrite E in G.
  - intros n (P & _). split; [|intros _; apply hash8_image]. apply valid_image; [eapply url_valid; eauto| |]; eapply node_attr_valid; eauto.
  - intros cfg n l x t _ (P & _) [A _] E. split; [|intros _; eapply hash8_link; eauto]. eapply valid_link; [| | |exact E]; auto; [eapply url_valid; eauto|eapply node_attr_valid; eauto].
  - split; [asc|]. intros _. apply hash8_none. vm_compute. intuition discriminate.
  - intros _ l x [H _]. unfold cell_text. apply valid_un. eapply valid_edits; [apply rebelled_edits, replace_rebelled|]. now apply valid_trim.
  - intros _. apply valid_nil.
  - intros _ x H. unfold cNL. apply valid_swap; auto; [lia|asc].
  - intros _ k x _ Fk [H1 H2]. split; [now apply valid_trim|]. apply hash8_caption, H2. now apply free_no_open.
  - intros _ n tcfg aligns rows cap _ _ F Cp. split.
    + apply valid_table; auto. destruct cap; auto. apply Cp.
    + intros _. apply hash8_table. destruct cap; auto. apply Cp.
  - intros _ d nm l x D Rx. exact (Strike d l _ x D Rx).
Qed.
End closed8.

(** ** Conversions *)
Section whole8.
Variable sort : forall A : Type, list (Z * A) -> list (Z * A).
Hypothesis Hsort : sorts sort.
Variable m : escape_mode.
Variable us : list use.
Variable url : bytes -> bytes -> bytes.
Notation cv := (converter_with m us).
Notation e := (env_of sort cv url).
Notation ts := (in_order sort (cv_text cv)).
Lemma base_valid c s : valid s -> valid (base_text e c s).
Proof.
  intros V. apply valid_entity in V. unfold base_text, env_of. cbn [escape_fn]. rewrite cw_mode. destruct m; cbn [escape_with]; auto. apply valid_escape; auto. intros x. now apply (chars_ink Smart us url).
Qed.
Lemma texts_valid d c : valid d -> valid (fold_left (fun s t => t e c s) ts d).
Proof.
  pose proof (text_cases sort Hsort m us) as K. revert K. generalize ts as l. intros l K. revert d. induction l as [|h l IH]; intros d V; auto. cbn [fold_left].
  apply IH; [intros; apply K; now right|]. destruct (K h (or_introl eq_refl)) as [-> | ->]; [now apply base_valid|].
  unfold commonmark_text. destruct (ctx_value _ _); auto. eapply valid_edits; [apply rebelled_edits, replace_rebelled|auto].
Qed.
Lemma posts_valid s : valid s -> valid (fold_left (fun s h => h e s) (in_order sort (cv_post cv)) s).
Proof.
  assert (K : forall h, In h (in_order sort (cv_post cv)) -> exists q, In (q, h) (flat_map use_post us)) by (intros h I; apply (in_order_in sort Hsort) in I; now rewrite cw_post in I).
  revert K. generalize (in_order sort (cv_post cv)) as l. intros l K. revert s. induction l as [|h l IH]; intros s V; auto. cbn [fold_left].
  apply IH; [intros; apply K; now right|]. destruct (K h (or_introl eq_refl)) as (q & I). apply use_post_cases in I as [(-> & ->)|[(-> & ->)|(-> & ->)]].
  - unfold base_trim, post_trim. now apply valid_hard, valid_tcn, valid_trim.
  - unfold base_unescape. apply valid_un; auto. intros x. apply env_un.
  - unfold commonmark_post, post_newline, cNL. apply valid_marks; auto. asc.
Qed.
Lemma default_valid d dflt : utf8 d -> valid dflt -> valid (or_default d dflt).
Proof. intros U D. unfold or_default. destruct (is_empty d); auto. now apply utf8_iff. Qed.
Lemma options_valid cfg : valid_cfg cfg = true -> utf8 (em_delimiter cfg) -> utf8 (strong_delimiter cfg) -> utf8 (horizontal_rule cfg) -> cfg8 (fill_defaults cfg).
Proof.
  unfold valid_cfg. destruct (validate_config (fill_defaults cfg)) eqn:V; [discriminate|]. intros _ U1 U2 U3. apply validate_spec in V as (Bu & Fe & _).
  split; [apply default_valid; auto; asc|]. split; [apply default_valid; auto; asc|]. split; [apply default_valid; auto; asc|]. split.
  - destruct Bu as [<-|[<-|[<-|[]]]]; asc.
  - destruct Fe as [<-|[<-|[]]]; vm_compute; reflexivity.
Qed.
Definition seen8 (heads : bool) : node -> bool := fix seen n :=
  match n with
  | Text d => validb d
  | Elem x a ks => name_in hidden_names x || elem8 heads x a && forallb seen ks
  | Doc ks => forallb seen ks
  | _ => true
  end.
Lemma seen_document heads doc : utf8_document doc -> (heads = false -> without_headings doc = true) -> seen8 heads doc = true.
Proof.
  unfold utf8_document. assert (K : forall ks, Forall (fun n => (forall s, In s (seen_strings n) -> utf8 s) -> (heads = false -> without_headings n = true) -> seen8 heads n = true) ks ->
    (forall s, In s (flat_map seen_strings ks) -> utf8 s) -> (heads = false -> forallb without_headings ks = true) -> forallb (seen8 heads) ks = true).
  { induction 1 as [|k ks Hk F IH]; intros D W; auto. cbn [forallb flat_map] in *. rewrite Hk, IH; auto.
    - intros s I. apply D, in_app_iff. now right.
    - intros Q. specialize (W Q). now apply andb_true_iff in W.
    - intros s I. apply D, in_app_iff. now left.
    - intros Q. specialize (W Q). now apply andb_true_iff in W. }
  induction doc as [d|x a ks IH|d|ks IH|d] using node_induction; cbn [seen8 seen_strings without_headings]; intros D W; auto.
  - apply validb_iff, utf8_iff, D. now left.
  - destruct (name_in hidden_names x); auto. cbn [orb] in *. unfold elem8.
    assert (A : forallb (fun kv => validb (snd kv)) a = true) by (apply forallb_forall; intros kv I; apply validb_iff, utf8_iff, D, in_app_iff; left; now apply in_map).
    rewrite A. cbn [andb]. rewrite K; auto.
    + rewrite andb_true_r. destruct heads; auto. specialize (W eq_refl). apply andb_true_iff in W as [W _]. exact W.
    + intros s I. apply D, in_app_iff. now right.
    + intros Q. specialize (W Q). now apply andb_true_iff in W.
Qed.
Lemma validb_app x y : validb x = true -> validb y = true -> validb (x ++ y) = true.
Proof. rewrite !validb_iff. apply valid_app. Qed.
Lemma collapse_valid d : validb d = true -> validb (collapse_ws d) = true.
Proof.
  rewrite !validb_iff. unfold collapse_ws. apply valid_edits. assert (K : forall p, edits d (collapse_ws_from p d)).
  { induction d as [|c d IH]; intros p; cbn [collapse_ws_from]; [constructor|]. destruct (is_ws c) eqn:W; [|now apply ed_same].
    assert (c < 128) by (unfold is_ws, cSP, cCR, cNL, cTAB in W; lia). destruct p; [now apply edits_drop|]. apply (ed_sub c [32]); auto. asc. }
  apply K.
Qed.
Lemma prepared8 heads doc : In UseBase us -> seen8 heads doc = true -> invisible doc = false -> node8 heads (prepared sort cv url doc).
Proof.
  intros Ib S I. unfold node8.
  apply (prepared_tree validb (elem8 heads)) with (seen := seen8 heads); auto.
  - apply validb_app.
  - apply collapse_valid.
  - intros r. rewrite !validb_iff. intros H. apply valid_cut in H; [tauto|]. cbn. lia.
  - intros x y a H Iy. unfold elem8 in *. apply andb_true_iff in H as [-> _]. cbn [andb]. destruct Iy as [<-|[<-|[<-|[<-|[]]]]]; now rewrite orb_true_r.
  - unfold elem8. cbn [forallb andb]. now rewrite orb_true_r.
  - unfold elem8. cbn [forallb andb]. now rewrite orb_true_r.
Qed.
Hypothesis Hurl : forall tag raw, utf8 raw -> utf8 (url tag raw).
Lemma url8 tag raw : valid raw -> valid (assemble_url e tag raw).
Proof. intros V. apply utf8_iff. apply Hurl. now apply utf8_iff. Qed.
Lemma plain_utf8 doc out : In UseBase us -> utf8_options us -> utf8_document doc -> without_headings doc = true -> invisible doc = false ->
  converts (convert_node sort cv url doc) out -> utf8 out.
Proof.
  intros Ib [Oc Od] D W I C. eapply convert_done in C; [|reflexivity]. unfold run_conversion in C. cbv zeta in C.
  assert (Pn : node8 false (prepared sort cv url doc)) by (apply prepared8; auto; now apply seen_document). set (p := prepared sort cv url doc) in *.
  pose proof (render_inv e ts _ _ _ _ _ _ _ _ _ _ _ (closed_plain e ts (env_un sort m us url) texts_valid url8) (in_order sort (cv_render cv))) as H.
  assert (Hbu : Forall (RenderInv.bundled cfg8 valid True) (in_order sort (cv_render cv))).
  { apply bundled_uses; [exact Hsort|..]; auto.
    - intros c Jc Vc. destruct (Oc c Jc) as (U1 & U2 & U3). now apply options_valid.
    - intros d J. apply default_valid; [now apply Od|asc]. }
  specialize (H Hbu no_strikes (S (height p)) [] [] p Pn (le_S _ _ (le_n _))).
  destruct (render _ _ _ _ _ _ _) as [x| |]; cbn [bind RenderInv.good] in *; try discriminate. injection C as <-. apply utf8_iff. now apply posts_valid.
Qed.
End whole8.
Lemma texts_marked sort us cfg url d c : sorts sort -> In UseBase us -> In (UseCommonmark cfg) us -> valid_cfg cfg = true ->
  marked 0 (fold_left (fun s t => t (env_of sort (converter_with Smart us) url) c s) (in_order sort (cv_text (converter_with Smart us))) d) = true.
Proof.
  intros Hsort Ib Ic V. set (e := env_of _ _ _).
  assert (Ee : escape_fn e = escape_content (escaped_char (converter_with Smart us))) by (unfold e, env_of; cbn [escape_fn]; now rewrite cw_mode).
  assert (E35 : escaped_char (converter_with Smart us) 35 = true) by (eapply protects_uses; eauto; cbn; tauto).
  assert (Hb : forall s, marked 0 (base_text e c s) = true) by (intros s; unfold base_text; rewrite Ee; now apply marked_escape).
  assert (Hl : forall s, marked 0 s = true -> marked 0 (commonmark_text e c s) = true) by (intros s; unfold commonmark_text; destruct (ctx_value _ _); auto; apply marked_link).
  assert (Hall : forall l s, (forall h, In h l -> h = base_text \/ h = commonmark_text) ->
    (marked 0 s = true \/ In base_text l -> marked 0 (fold_left (fun s t => t e c s) l s) = true)).
  { induction l as [|h l IH]; intros s Hh; cbn [fold_left]; [intros [M|[]]; exact M|].
    pose proof (IH (h e c s) (fun h I => Hh h (or_intror I))) as B. destruct (Hh h (or_introl eq_refl)) as [Q|Q]; subst h; auto.
    intros [M|[M|M]]; auto. apply B. left. rewrite M. apply Hb. }
  apply Hall; [intros h; now apply text_cases|]. right. now apply text_base.
Qed.
Lemma heads_utf8 sort us cfg url doc out : sorts sort -> In UseBase us -> In (UseCommonmark cfg) us ->
  (forall c, In (UseCommonmark c) us -> ~ In 35 (em_delimiter (fill_defaults c)) /\ ~ In 35 (strong_delimiter (fill_defaults c))) ->
  (forall d, In (UseStrikethrough d) us -> d = [] \/ ~ In 35 d /\ exists c, In c d /\ graphic c = true) ->
  (forall tag raw, utf8 raw -> utf8 (url tag raw)) -> utf8_options us -> utf8_document doc ->
  tidy doc = true -> invisible doc = false -> converts (convert_node sort (converter_with Smart us) url doc) out -> utf8 out.
Proof.
  intros Hsort Ib Ic Hd Ns Hurl [Oc Od] D T I C.
  assert (V : valid_cfg cfg = true) by (eapply converts_valid; eauto).
  eapply convert_done in C; [|reflexivity]. unfold run_conversion in C. cbv zeta in C.
  set (e := env_of sort (converter_with Smart us) url) in *. set (ts := in_order sort (cv_text (converter_with Smart us))) in *.
  assert (P8 : node8 true (prepared sort (converter_with Smart us) url doc)) by (apply prepared8; auto; apply seen_document; auto; discriminate).
  destruct (prepared_text sort Hsort (fun _ => false) ltac:(discriminate) Smart us url doc Ib T I) as [_ Pt].
  assert (Pn : ok8 (strikes_in us) (prepared sort (converter_with Smart us) url doc)) by (split; [exact P8|split; [exact Pt|eapply prepared_sealed; eauto]]).
  set (p := prepared sort (converter_with Smart us) url doc) in *.
  assert (Hh : forall d c, hash8 (fold_left (fun s t => t e c s) ts d)) by (intros d c; apply marked_hash8; eapply texts_marked; eauto).
  pose proof (render_inv e ts _ _ _ _ _ _ _ _ _ _ _ (closed_heads e ts (env_un sort Smart us url) (texts_valid sort Hsort Smart us url) (url8 sort Smart us url Hurl) Hh (strikes_in us))
    (in_order sort (cv_render (converter_with Smart us)))) as H.
  assert (Hp : forall d, In (UseStrikethrough d) us -> full_delim (or_default d (b "~~"))).
  { intros d J. split; [apply default_valid; [now apply Od|asc]|now apply plain_strike, Ns]. }
  assert (Hbu : Forall (RenderInv.bundled full_cfg full_delim True) (in_order sort (cv_render (converter_with Smart us)))).
  { apply bundled_uses; [exact Hsort|..]; auto.
    intros c Jc Vc. destruct (Hd c Jc). destruct (Oc c Jc) as (U1 & U2 & U3). split; [now apply options_valid|split; [now apply valid_plain|]].
    clear - Vc. unfold valid_cfg in Vc. destruct (validate_config (fill_defaults c)) eqn:V; [discriminate|]. apply validate_spec in V as (_ & Fe & _).
    unfold ws_byte. destruct Fe as [<-|[<-|[]]]; cbn [b hd]; split; try lia; vm_compute; intuition discriminate. }
  specialize (H Hbu (uses_striking sort Hsort full_delim Smart us Hp) (S (height p)) [] [] p Pn (le_S _ _ (le_n _))).
  destruct (render _ _ _ _ _ _ _) as [x| |]; cbn [bind RenderInv.good] in *; try discriminate. injection C as <-. destruct H as [H _]. apply utf8_iff. now apply posts_valid.
Qed.
