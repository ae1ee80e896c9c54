(** Rendering with the bundled plugins ends, and in smart mode no heading makes it panic. *)
From Coq Require Import List NArith ZArith Bool String Lia ZifyBool ZifyNat ZifyN.
From Verif Require Import Bytes BytesFacts TextUtils RenderText Escape SpecText TextFacts TextFacts2 RenderFacts RenderFacts2 RenderFacts3
  RenderFacts4 RenderFacts5 Dom DomUtils Engine CommonMark Table RenderInv.
Import ListNotations.
Open Scope N_scope.
Open Scope list_scope.

(** A visible ASCII byte other than the number sign *)
Definition solid (c : N) : Prop := c < 128 /\ c <> 35 /\ c <> 32 /\ ~ (9 <= c <= 13).
Definition has_solid (x : bytes) : Prop := exists c, In c x /\ solid c.
(** A number sign, a space and something visible before the end of the line *)
Definition has_heading (x : bytes) : Prop := exists u c v, x = u ++ 35 :: 32 :: c ++ 10 :: v /\ ~ spaces c.
Definition safe (x : bytes) : Prop := In 35 x -> has_solid x \/ has_heading x.

Lemma solid_safe x : has_solid x -> safe x.
Proof. intros H _. now left. Qed.
Lemma has_solid_app_l x y : has_solid x -> has_solid (x ++ y).
Proof. intros (c & I & S). exists c. rewrite in_app_iff. auto. Qed.
Lemma has_solid_app_r x y : has_solid y -> has_solid (x ++ y).
Proof. intros (c & I & S). exists c. rewrite in_app_iff. auto. Qed.
Lemma safe_app x y : safe x -> safe y -> safe (x ++ y).
Proof.
  intros X Y I. apply in_app_iff in I as [I|I].
  - destruct (X I) as [S|(u & c & v & -> & N)]; [left; now apply has_solid_app_l|].
    right. exists u, c, (v ++ y). split; auto. rewrite <- app_assoc. cbn [app]. now rewrite <- app_assoc.
  - destruct (Y I) as [S|(u & c & v & -> & N)]; [left; now apply has_solid_app_r|].
    right. exists (x ++ u), c, v. split; auto. now rewrite <- app_assoc.
Qed.
Lemma safe_none x : ~ In 35 x -> safe x.
Proof. intros N I. now elim N. Qed.
Lemma solid_in c x : In c x -> (c < 128 /\ c <> 35 /\ c <> 32 /\ ~ (9 <= c <= 13)) -> has_solid x.
Proof. intros I S. exists c. split; auto. Qed.
Ltac solid_here k := apply solid_safe; exists k; split; [|unfold solid; lia].

Lemma ws_not_35 l : Forall ws_byte l -> ~ In 35 l.
Proof. intros F I. rewrite Forall_forall in F. specialize (F _ I). unfold ws_byte in F. lia. Qed.
Lemma spaces_ws s : spaces s -> Forall ws_byte s.
Proof.
  intros H. pose proof (proj2 (trim_space_nil s) H) as E. destruct (trim_space_ws s) as (l & r & Es & Fl & Fr).
  rewrite E in Es. rewrite Es. apply Forall_app. auto.
Qed.
Lemma solid_trim x : has_solid x -> has_solid (trim_space x).
Proof.
  intros (c & I & S). destruct (trim_space_ws x) as (l & r & E & Fl & Fr). exists c. split; auto.
  rewrite E in I. rewrite !in_app_iff in I. destruct I as [I|[I|I]]; auto; rewrite Forall_forall in *.
  - specialize (Fl _ I). unfold ws_byte, solid in *. lia.
  - specialize (Fr _ I). unfold ws_byte, solid in *. lia.
Qed.
Lemma solid_squeeze x : forall p, has_solid x -> has_solid (squeeze_spaces p x).
Proof.
  intros p (c & I & S). exists c. split; auto. revert p. induction x as [|d x IH]; [destruct I|]. intros p. cbn [squeeze_spaces].
  destruct (d =? cSP) eqn:E.
  - apply N.eqb_eq in E. unfold cSP in E. subst d. destruct I as [<-|I]; [unfold solid in S; lia|].
    destruct p; [now apply IH|right; now apply IH].
  - destruct I as [<-|I]; [now left|right; now apply IH].
Qed.
Lemma solid_one_line x : has_solid x -> has_solid (map one_line x).
Proof.
  intros (c & I & S). exists c. split; auto. apply in_map_iff. exists c. split; auto. unfold one_line.
  destruct ((c =? 10) || (c =? 13)) eqn:E; auto. unfold solid in S. lia.
Qed.
Lemma squeeze_split w : forall p u, squeeze_spaces p (u ++ 35 :: w) = squeeze_spaces p u ++ 35 :: squeeze_spaces false w.
Proof.
  intros p u. revert p. induction u as [|d u IH]; intros p; [reflexivity|]. cbn [app squeeze_spaces]. rewrite !IH.
  destruct (d =? cSP); [destruct p; reflexivity|reflexivity].
Qed.
Lemma one_hash (u v l r : bytes) : u ++ 35 :: v = l ++ 35 :: r -> ~ In 35 l -> ~ In 35 r -> u = l /\ v = r.
Proof.
  revert l. induction u as [|c u IH]; intros l E Nl Nr.
  - destruct l as [|d l]; [injection E as <-; auto|]. injection E as <- _. elim Nl. now left.
  - destruct l as [|d l].
    + injection E as -> E. elim Nr. rewrite <- E. apply in_app_iff. right. now left.
    + injection E as <- E. destruct (IH l E) as [-> ->]; auto. intros I. apply Nl. now right.
Qed.
Lemma spaces_one_line s : spaces (map one_line s) <-> spaces s.
Proof.
  rewrite <- !trim_space_nil, (trim_space_to_space _ one_line_map). split; intros H; [now destruct (trim_space s)|now rewrite H].
Qed.
Lemma spaces_tail32 s : spaces (32 :: s) -> spaces s.
Proof.
  intros H. remember (32 :: s) as z eqn:E. destruct H as [|e r t D R S]; [discriminate|]. destruct e as [|c e].
  - cbn in D. injection D as <-. discriminate R.
  - injection E as -> <-. pose proof (decode_rune_spec 32 e) as P. rewrite D in P. destruct P as [(_ & _ & L)|(G & _)]; [|lia].
    destruct e; [exact S|discriminate].
Qed.
Lemma atx_not_hash x : safe x -> trim_space (squeeze_spaces false (map one_line x)) <> [35].
Proof.
  intros P E. assert (I : In 35 x).
  { assert (I : In 35 (trim_space (squeeze_spaces false (map one_line x)))) by (rewrite E; now left).
    apply trim_space_in, squeeze_in in I. apply in_map_iff in I as (c & Ec & I). unfold one_line in Ec.
    destruct ((c =? 10) || (c =? 13)); [discriminate|now subst]. }
  destruct (P I) as [S|(u & c & v & -> & N)].
  - destruct (solid_trim _ (solid_squeeze _ false (solid_one_line _ S))) as (c & Ic & Sc). rewrite E in Ic.
    destruct Ic as [<-|[]]. unfold solid in Sc. lia.
  - destruct (trim_space_spaces (squeeze_spaces false (map one_line (u ++ 35 :: 32 :: c ++ 10 :: v)))) as (l & r & Es & Sl & Sr).
    rewrite E in Es. rewrite map_app in Es. cbn [map] in Es. change (one_line 35) with 35 in Es. change (one_line 32) with 32 in Es.
    rewrite squeeze_split in Es. cbn [app] in Es. apply one_hash in Es as [_ Ev]; try (apply ws_not_35, spaces_ws; auto).
    rewrite <- Ev in Sr. apply spaces_squeeze in Sr. rewrite map_app in Sr. cbn [map] in Sr. change (one_line 10) with 32 in Sr.
    assert (Sm : spaces (map one_line (32 :: c ++ 10 :: v))).
    { cbn [map]. rewrite map_app. cbn [map]. exact Sr. }
    apply spaces_one_line, spaces_tail32, spaces_cut in Sm as [Sc _]. auto.
Qed.
Lemma escape_pound_cases t : t <> [] -> t <> [35] ->
  exists c, escape_pound t = Some c /\ (c = t \/ In 92 c).
Proof.
  intros N1 N2. unfold escape_pound, escape_pound_rev. destruct (rev t) as [|c r] eqn:E.
  - apply (f_equal (@rev N)) in E. rewrite rev_involutive in E. now elim N1.
  - assert (Et : t = rev (c :: r)) by (rewrite <- E; now rewrite rev_involutive).
    destruct (negb (c =? 35)) eqn:Ec; cbn [option_map].
    + eexists. split; [reflexivity|]. left. now rewrite Et.
    + apply negb_false_iff, N.eqb_eq in Ec. subst c. destruct r as [|d [|d2 u]].
      * elim N2. now rewrite Et.
      * eexists. split; [reflexivity|]. right. rewrite <- in_rev. right. now left.
      * destruct (d2 =? 92); cbn [option_map]; (eexists; split; [reflexivity|]); [left; now rewrite Et|].
        right. rewrite <- in_rev. right. now left.
Qed.
Lemma safe_heading setext level x : (1 <= level <= 6)%nat -> safe x ->
  match heading_text setext level x with Some t => safe t | None => False end.
Proof.
  intros L P. unfold heading_text. destruct (is_empty (trim_space x)) eqn:Em; [apply safe_none; auto|].
  assert (Nt : trim_space x <> []) by (destruct (trim_space x); [discriminate Em|discriminate]).
  destruct (setext && Nat.ltb level 3).
  - set (w := underline_width _ 3). assert (Hw : (1 <= w)%nat) by (unfold w, underline_width; lia).
    apply solid_safe. rewrite !app_assoc. apply has_solid_app_l, has_solid_app_r. unfold setext_line. destruct w; [lia|].
    cbn [repeat]. destruct (Nat.eqb level 1).
    + exists 61. split; [now left|unfold solid; lia].
    + exists 45. split; [now left|unfold solid; lia].
  - rewrite atx_content_eq. set (T := trim_space (squeeze_spaces false (map one_line x))).
    destruct (escape_pound_cases T (atx_nonempty _ Nt) (atx_not_hash _ P)) as (c & -> & C). cbn [option_map].
    destruct C as [->|I].
    + intros _. right. exists ([cNL; cNL] ++ repeat 35 (pred level)), T, [cNL]. split.
      * destruct level; [lia|]. cbn [pred]. rewrite <- !app_assoc. f_equal.
        replace (repeat 35 (S level)) with (repeat 35 level ++ [35]) by (rewrite repeat_snoc; reflexivity).
        rewrite <- app_assoc. reflexivity.
      * intros S. apply trim_space_nil in S. unfold T in S. rewrite trim_space_idem in S. apply (atx_nonempty _ Nt S).
    + solid_here 92. rewrite !in_app_iff. auto.
Qed.

Lemma safe_join (f : bytes -> bytes) sep ls : (forall l, In 35 (f l) -> has_solid (f l)) -> ~ In 35 sep -> safe (join sep (map f ls)).
Proof.
  intros H N I. left. induction ls as [|l ls IH]; [destruct I|]. cbn [map] in *. destruct ls as [|l2 ls].
  - cbn [map join] in *. auto.
  - rewrite join_cons in * by discriminate. rewrite !in_app_iff in I. destruct I as [I|[I|I]].
    + apply has_solid_app_l. auto.
    + now elim N.
    + apply has_solid_app_r, has_solid_app_r. auto.
Qed.
Lemma delimit_in c d l : In c d -> In 35 (delimit_line d l) -> In c (delimit_line d l).
Proof.
  intros Id. destruct (delimit_line_spec d l) as [l S|l t r Sl Sr H]; intros I.
  - elim (ws_not_35 _ (spaces_ws _ S) I).
  - rewrite !in_app_iff. auto.
Qed.
Lemma safe_emphasis d x : has_solid d -> safe (emphasis_text d x).
Proof.
  intros (c & I & S). apply safe_join; [|intros [E|[]]; discriminate E]. intros l J. exists c. split; auto. now apply delimit_in.
Qed.

Lemma safe_text_mark (esc : N -> bool) s : esc 35 = true -> safe (escape_content esc s).
Proof.
  intros E. induction s as [|c s IH]; [apply safe_none; auto|]. cbn [escape_content]. destruct (c =? cNUL) eqn:Z.
  - apply safe_app; auto. apply safe_none. cbn. unfold rune_error_bytes. cbn. intuition discriminate.
  - destruct (esc (fst (decode_rune (c :: s)))) eqn:D.
    + solid_here 7. now left.
    + change (c :: escape_content esc s) with ([c] ++ escape_content esc s). apply safe_app; auto. apply safe_none.
      intros [->|[]]. assert (R : fst (decode_rune (35 :: s)) = 35) by reflexivity. rewrite R in D. now rewrite D in E.
Qed.
(** Induction over the steps of strings.ReplaceAll *)
Lemma replace_ind (old new : bytes) (P : bytes -> bytes -> Prop) : old <> [] -> P [] [] ->
  (forall r o, P r o -> P (old ++ r) (new ++ o)) ->
  (forall c t o, has_prefix old (c :: t) = false -> P t o -> P (c :: t) (c :: o)) ->
  forall s, P s (replace_all old new s).
Proof.
  intros N H0 H1 H2 s. remember (List.length s) as n eqn:L. revert s L. induction n as [n IH] using lt_wf_ind. intros s L.
  destruct s as [|d s]; [exact H0|]. rewrite replace_all_cons. destruct (has_prefix old (d :: s)) eqn:E.
  - apply has_prefix_iff in E as (r & E). destruct old as [|o old]; [now elim N|]. cbn [app] in E. injection E as -> E.
    cbn [List.length pred]. rewrite E, skipn_app, skipn_all, Nat.sub_diag. cbn [skipn app]. apply (H1 r). apply (IH (List.length r)); auto.
    subst n s. cbn [List.length]. rewrite app_length. lia.
  - apply H2; auto. apply (IH (List.length s)); auto. subst n. cbn. lia.
Qed.
Lemma replace_in old new s c : old <> [] -> In c s -> ~ In c old -> In c (replace_all old new s).
Proof.
  intros N I M. revert I. apply (replace_ind old new (fun s o => In c s -> In c o)); auto.
  - intros r o H I. apply in_app_iff in I as [I|I]; [now elim M|]. apply in_app_iff. auto.
  - intros d t o _ H [I|I]; [now left|right; auto].
Qed.
Lemma replace_back old new s c : old <> [] -> In c (replace_all old new s) -> In c s \/ In c new.
Proof.
  intros N. apply (replace_ind old new (fun s o => In c o -> In c s \/ In c new)); auto.
  - intros r o H I. apply in_app_iff in I as [I|I]; auto. destruct (H I); auto. left. apply in_app_iff. auto.
  - intros d t o _ H [I|I]; [left; now left|]. destruct (H I); auto. left. now right.
Qed.
Lemma safe_link_text s : safe s -> safe (replace_all [marker_esc; 93] [92; 93] s).
Proof.
  intros P I. assert (J : In 35 s). { apply replace_back in I as [I|I]; [easy| |discriminate]. cbn in I. intuition discriminate. }
  assert (K : In 92 (replace_all [marker_esc; 93] [92; 93] s) \/ replace_all [marker_esc; 93] [92; 93] s = s).
  { clear. apply (replace_ind [marker_esc; 93] [92; 93] (fun s o => In 92 o \/ o = s)); auto; [discriminate|left; now left|].
    intros c t o _ [H| ->]; [left; now right|now right]. }
  destruct K as [K| ->]; [|auto]. left. exists 92. split; auto. unfold solid. lia.
Qed.

(** ** The list, the table and the other texts *)
Lemma ordered_has_dot start n i : In 46 (ordered_prefix start n i).
Proof. unfold ordered_prefix. apply in_app_iff. right. now left. Qed.
Lemma safe_list un ul marker start items : has_solid marker -> safe (list_text un ul marker start items).
Proof.
  intros M. unfold list_text. set (its := filter _ _). destruct its as [|it rest]; [apply safe_none; auto|]. cbn [is_empty].
  apply solid_safe, has_solid_app_r, has_solid_app_l. cbn [list_items]. apply has_solid_app_l. unfold list_prefix. destruct ul.
  - now apply has_solid_app_l.
  - eapply solid_in; [apply ordered_has_dot|lia].
Qed.
Lemma safe_row_nil tcfg cells : safe (row_text tcfg [] cells).
Proof.
  unfold row_text. cbn [combine map List.concat]. rewrite app_nil_r.
  destruct (is_empty cells); apply safe_none; cbn; intuition discriminate.
Qed.
Definition safe_cap (s : bytes) : Prop := safe (s ++ [10]).
Lemma safe_table tcfg aligns rows cap : (match cap with Some s => safe_cap s | None => True end) -> safe (table_text tcfg aligns rows cap).
Proof.
  intros Hc. unfold table_text. cbv zeta. destruct (max_counts rows) as [|k ks] eqn:E.
  - assert (NL : safe [cNL]) by (apply safe_none; cbn; intuition discriminate).
    assert (NL2 : safe [cNL; cNL]) by (apply safe_none; cbn; intuition discriminate).
    apply safe_app; auto. apply safe_app; [apply safe_row_nil|]. apply safe_app; auto. apply safe_app; [apply safe_none; auto|].
    apply safe_app; auto. apply safe_app.
    + induction (tl (map (fill_row (List.length (@nil nat))) rows)) as [|r rs IH]; [apply safe_none; auto|].
      cbn [map List.concat]. apply safe_app; auto. apply safe_app; auto. apply safe_row_nil.
    + destruct cap as [s|]; [|exact NL2]. rewrite <- app_assoc. apply safe_app; auto. change [cNL; cNL] with ([10] ++ [10]).
      rewrite (app_assoc s). apply safe_app; auto.
  - solid_here 124. rewrite !in_app_iff. do 3 right. left. unfold underline_text. cbn [is_empty]. apply in_app_iff. left. now left.
Qed.
Lemma hash_between l : forall s r u w, l ++ s ++ r = u ++ 35 :: w -> ~ In 35 l -> ~ In 35 r ->
  exists u' w', s = u' ++ 35 :: w' /\ w = w' ++ r.
Proof.
  induction l as [|c l IH]; intros s r u w E Nl Nr.
  - cbn [app] in E. revert u E. induction s as [|c s IHs]; intros u E.
    + cbn [app] in E. elim Nr. rewrite E. apply in_app_iff. right. now left.
    + destruct u as [|d u].
      * injection E as -> <-. now exists [], s.
      * injection E as -> E. destruct (IHs u E) as (u' & w' & -> & ->). now exists (d :: u'), w'.
  - destruct u as [|d u].
    + injection E as -> E. elim Nl. now left.
    + injection E as -> E. apply (IH s r u w E); auto. intros I. apply Nl. now right.
Qed.
Lemma app_split {A} (a c : list A) : forall b0 d, a ++ b0 = c ++ d -> (exists k, a = c ++ k /\ d = k ++ b0) \/ (exists k, c = a ++ k /\ b0 = k ++ d).
Proof.
  revert c. induction a as [|x a IH]; intros c b0 d E; [right; now exists c|]. destruct c as [|y c]; [left; now exists (x :: a)|].
  injection E as -> E. destruct (IH c b0 d E) as [(k & -> & ->)|(k & -> & ->)]; [left|right]; now exists k.
Qed.
Lemma safe_caption x : safe x -> safe_cap (trim_space x).
Proof.
  intros P I. assert (J : In 35 (trim_space x)). { apply in_app_iff in I as [I|[I|[]]]; [auto|discriminate]. }
  destruct (P (trim_space_in _ _ J)) as [S|(u & c & v & E & N)]; [left; apply has_solid_app_l; now apply solid_trim|].
  right. destruct (trim_space_spaces x) as (l & r & Es & Sl & Sr). set (s := trim_space x) in *. clearbody s.
  rewrite E in Es. symmetry in Es. apply hash_between in Es as (u' & w' & -> & Ew); try (apply ws_not_35, spaces_ws; auto).
  destruct w' as [|d w'].
  - cbn [app] in Ew. subst r. apply spaces_tail32, spaces_cut in Sr as [Sc _]. contradiction.
  - cbn [app] in Ew. injection Ew as <- Ew. symmetry in Ew. apply app_split in Ew as [(k & -> & Ed)|(k & -> & ->)].
    + destruct k as [|d k].
      * rewrite app_nil_r. exists u', c, []. split; auto. now rewrite <- app_assoc.
      * injection Ed as <- ->. exists u', c, (k ++ [10]). split; auto. rewrite <- app_assoc. cbn [app]. now rewrite <- app_assoc.
    + exists u', w', []. split; [now rewrite <- app_assoc|]. intros Sw. apply N. apply spaces_cut in Sr as [Sk _]. now apply spaces_app.
Qed.

(** ** The two instances *)
Definition solid_cfg (cfg : config) : Prop :=
  has_solid (em_delimiter cfg) /\ has_solid (strong_delimiter cfg) /\ has_solid (horizontal_rule cfg)
  /\ has_solid (bullet_marker cfg) /\ solid (hd 96 (code_fence_opt cfg)).
Lemma safe_closed e ts : (forall d c, safe (fold_left (fun s t => t e c s) ts d)) ->
  closed e ts false (fun _ => false) (fun _ => []) (fun _ x => safe x) (fun _ => True) safe_cap False (fun _ => True) solid_cfg has_solid True.
Proof.
  intros Ht. split; auto.
  - intros n _. apply Forall_forall. auto.
  - intros n _ _. unfold below_vis. induction (kids n); simpl; auto. rewrite vis_nil; auto.
  - apply safe_none. auto.
  - intros _ _ x y. apply safe_app.
  - apply safe_none. cbn. intuition discriminate.
  - intros cfg l x (_ & H & _) _. now apply safe_emphasis.
  - intros cfg l x (H & _) _. now apply safe_emphasis.
  - intros d l x H _. now apply safe_emphasis.
  - intros cfg (_ & _ & H & _). unfold divider_text. apply solid_safe, has_solid_app_r, has_solid_app_l, H.
  - apply safe_none. cbn. intuition discriminate.
  - intros cfg n ul start ls items (_ & _ & _ & H & _) _ _ _. now apply safe_list.
  - intros cfg n (_ & _ & _ & _ & H) _ _. unfold block_code_text. cbv zeta. apply solid_safe, has_solid_app_r, has_solid_app_l.
    unfold calculate_code_fence. destruct (Nat.max 3 _) eqn:E; [lia|]. exists (hd 96 (code_fence_opt cfg)). split; [now left|auto].
  - intros n _ _. unfold inline_code_text. destruct (is_empty _).
    + solid_here 96. now left.
    + solid_here 96. cbn [repeat app]. now left.
  - intros _ x _. unfold blockquote_text. cbv zeta. destruct (is_empty _); [apply safe_none; auto|]. solid_here 62. rewrite !in_app_iff. right. left. unfold prefix_lines. now left.
  - intros setext level n x _ H _ _ P. apply (safe_heading setext level x H P).
  - intros n _. solid_here 33. now left.
  - intros cfg n l x t _ _ _. unfold link_text. destruct (_ && _); [discriminate|]. destruct (_ && _); [discriminate|].
    destruct (surrounding_spaces x) as [[p q] r]. destruct (beqb _ _); [|discriminate]. intros [= <-]. solid_here 91.
    rewrite in_app_iff. right. now left.
  - solid_here 60. right. right. now left.
  - intros _ k x _ _ P. now apply safe_caption.
  - intros _ n tcfg aligns rows cap _ _ _. apply safe_table.
  - discriminate.
Qed.
Lemma any_closed e ts :
  closed e ts false (fun _ => false) (fun _ => []) (fun _ _ => True) (fun _ => True) (fun _ => True) True (fun _ => True) (fun _ => True) (fun _ => True) True.
Proof.
  split; auto.
  - intros n _. apply Forall_forall. auto.
  - intros n _ _. unfold below_vis. induction (kids n); simpl; auto. rewrite vis_nil; auto.
  - intros setext level n x _ _ _ _ _. now destruct (heading_text setext level x).
Qed.
