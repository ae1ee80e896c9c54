(** Proofs about escaping, continued: backticks and tildes; the text-level statements. *)
From Coq Require Import List NArith Bool Lia Arith ZifyBool ZifyNat ZifyN.
From Verif Require Import Bytes BytesFacts TextUtils Escape SpecEscape EscapeFacts EscapeFacts2 EscapeFacts3 EscapeFacts4.
Import ListNotations.
Open Scope N_scope.
Open Scope list_scope.

(** ** Backticks *)
Definition ticks_ok (d : detector) : Prop :=
  forall rb c af n, d rb c af = Some n -> (1 < n)%nat ->
    Forall (fun x => x = 7 \/ x = 96 \/ x = 126) (firstn n (c :: af)) \/
    Forall (fun x => x <> 96 /\ x <> 126) (firstn n (c :: af)).
Definition tick_region (k : nat) (t : bytes) : Prop :=
  Forall (fun x => x = 7 \/ x = 96 \/ x = 126) (firstn (S k) t) \/
  Forall (fun x => x <> 96 /\ x <> 126) (firstn (S k) t).

Lemma tk_one d : (forall rb c af n, d rb c af = Some n -> n = 1%nat) -> ticks_ok d.
Proof. intros H rb c af n E L. apply H in E. lia. Qed.
Ltac simple_tk :=
  apply tk_one; intros rb c af n H;
  match type of H with
  | ?d rb c af = Some n => unfold d in H
  end;
  repeat match type of H with
  | (if ?x then _ else _) = Some _ => destruct x eqn:?; try discriminate
  end; try (inversion H; reflexivity).
Lemma tk_italic : ticks_ok is_italic_or_bold. Proof. simple_tk. Qed.
Lemma tk_quote : ticks_ok is_block_quote. Proof. simple_tk. Qed.
Lemma tk_strike : ticks_ok is_strikethrough. Proof. simple_tk. Qed.
Lemma tk_inline : ticks_ok is_inline_code. Proof. simple_tk. Qed.
Lemma tk_backslash : ticks_ok is_backslash. Proof. simple_tk. Qed.
Lemma tk_unordered : ticks_ok is_unordered_list. Proof. simple_tk. Qed.
Lemma tk_ordered : ticks_ok is_ordered_list. Proof. simple_tk. Qed.
Lemma tk_image : ticks_ok is_image_or_link.
Proof.
  simple_tk. 2: now apply bracket_scan_one in H.
  destruct af as [|d af]; [discriminate|]. destruct (d =? 91); [now inversion H|discriminate].
Qed.
Lemma tk_setext : ticks_ok is_setext_header.
Proof. simple_tk. now apply setext_back_one in H. Qed.
Lemma tk_atx : ticks_ok is_atx_header.
Proof.
  intros rb c af n H L. unfold is_atx_header in H.
  destruct (negb (c =? 35)) eqn:E; [discriminate|].
  destruct (only_blank_before rb) eqn:B; [|discriminate].
  apply atx_scan_region in H as [->|[_ F]]; [lia| |lia].
  right. replace n with (S (n - 1)) by lia. cbn [firstn]. constructor; [lia|].
  apply Forall_impl with (2 := F). lia.
Qed.
Lemma tk_fence : ticks_ok is_fenced_code.
Proof.
  intros rb c af n H L. unfold is_fenced_code in H.
  destruct (negb ((c =? 96) || (c =? 126))) eqn:E; [discriminate|].
  destruct (only_blank_before rb) eqn:B; [|discriminate]. cbn [negb] in H.
  pose proof (fence_scan_region af 1 1) as G. destruct (fence_scan 1 1 af) as [k m]. destruct G as [_ F].
  destruct (Nat.ltb k 3); [discriminate|]. inversion H; subst m.
  left. replace n with (S (n - 1)) by lia. cbn [firstn]. constructor; [lia|].
  apply Forall_impl with (2 := F). lia.
Qed.
Lemma tk_divider : ticks_ok is_divider.
Proof.
  intros rb c af n H Ln. unfold is_divider in H.
  destruct (negb ((c =? 45) || (c =? 95) || (c =? 42))) eqn:E; [discriminate|].
  destruct (only_blank_before rb) eqn:B; [|discriminate].
  apply divider_scan_region in H as (reg & rest & -> & L & D & F & R).
  right. replace n with (S (List.length reg)) by lia. cbn [firstn]. constructor; [lia|].
  rewrite firstn_app, Nat.sub_diag, firstn_all, firstn_O, app_nil_r. apply Forall_impl with (2 := F). lia.
Qed.
Lemma only_tk ds : only_bundled ds -> Forall ticks_ok ds.
Proof.
  assert (H : Forall ticks_ok commonmark_detectors).
  { unfold commonmark_detectors; repeat apply Forall_cons; try apply Forall_nil;
    auto using tk_italic, tk_quote, tk_inline, tk_backslash, tk_unordered, tk_ordered, tk_image,
      tk_setext, tk_atx, tk_divider, tk_fence. }
  intros I. apply (incl_Forall I). apply Forall_app. split; [exact H|]. constructor; [exact tk_strike|constructor].
Qed.
Lemma bundled_tk ds : bundled ds -> Forall ticks_ok ds.
Proof. intros [_ I]. now apply only_tk. Qed.

Lemma first_skip_tick ds rb c af n : Forall ticks_ok ds -> first_skip ds rb c af = Some n -> (1 < n)%nat ->
  tick_region (pred n) (c :: af).
Proof.
  intros W H L. apply first_skip_in in H as [d [I E]]. rewrite Forall_forall in W.
  unfold tick_region. replace (S (pred n)) with n by lia. exact (W d I rb c af n E L).
Qed.
Definition run_so_far (A : list kbyte) (t : bytes) (k : nat) : Prop :=
  Forall (fun x => x <> 96 /\ x <> 126) (firstn (S k) t) \/
  Forall (fun x => x = 7 \/ x = 96 \/ x = 126) (firstn (S k) t) /\
  exists A1 G, A = A1 ++ (92, Ins) :: G /\ Forall (fun x : kbyte => fst x = 96 \/ fst x = 126) G.
Lemma reach_tick ds s : Forall well_behaved ds -> Forall ticks_ok ds -> forall rb A skip lit t,
  reach ds s rb A skip lit t -> skip <> O -> run_so_far A t skip.
Proof.
  intros W V. induction 1 as [|rb A skip lit c t Hc R IH|rb A k lit t R IH|rb A lit d t R IH F|rb A lit d t n R IH F]; intros HS.
  - easy.
  - destruct skip as [|[|k]]; try easy. cbn [pred] in *.
    destruct (IH ltac:(discriminate)) as [H|[H (A1 & G & -> & FG)]].
    + left. cbn [firstn] in *. now inversion H.
    + right. cbn [firstn] in *. inversion H; subst. split; [easy|].
      exists A1, (G ++ [(c, if lit then Lit else Raw)]). split; [now rewrite <- app_assoc|].
      apply Forall_app. split; [easy|]. constructor; [cbn; lia|constructor].
  - destruct k as [|k]; [easy|].
    destruct (IH ltac:(discriminate)) as [H|[H (A1 & G & -> & FG)]].
    + left. cbn [firstn] in *. now inversion H.
    + right. cbn [firstn] in *. inversion H; subst. split; [easy|]. now exists A1, G.
  - easy.
  - pose proof F as F'. apply first_skip_tick in F; auto; [|lia].
    destruct F as [F|F]; [right; split; [exact F|]|left; exact F].
    exists A, []. split; [reflexivity|constructor].
Qed.

Lemma tick_lit ds s A c B : Forall well_behaved ds -> Forall ticks_ok ds ->
  ann ds O false [] s = A ++ (c, Lit) :: B -> c = 96 \/ c = 126 ->
  escaped_run A \/
  exists rb t skip', (s = rev rb ++ 7 :: c :: t) /\ B = ann ds skip' false (c :: 7 :: rb) t /\ first_skip ds (7 :: rb) c t = None.
Proof.
  intros W V E Hc.
  destruct (ann_lit_full ds s W A c B E) as (rb & A0 & skip & lit & t & skip' & R & H7' & HB & K).
  destruct K as [(_ & -> & _)|[(-> & -> & F)|(HK & -> & _)]].
  - left. exists A0, []. split; [reflexivity|constructor].
  - right. exists rb, t, skip'. rewrite (reach_in _ _ _ _ _ _ _ R). auto.
  - left. pose proof (reach_tick ds s W V _ _ _ _ _ R HK) as RG.
    destruct skip as [|k]; [easy|].
    destruct RG as [Fr|[Fr (A1 & G & -> & FG)]].
    + cbn [firstn] in Fr. inversion Fr as [|? ? _ Fr']; subst. inversion Fr'; subst. lia.
    + now exists A1, G.
Qed.
Lemma backtick_lit ds s A B : Forall well_behaved ds -> Forall ticks_ok ds -> In is_inline_code ds ->
  ann ds O false [] s = A ++ (96, Lit) :: B -> escaped_run A.
Proof.
  intros W V I E. destruct (tick_lit ds s A 96 B W V E (or_introl eq_refl)) as [H|(rb & t & sk & _ & _ & F)]; [exact H|].
  apply (first_skip_none _ _ _ _ _ F) in I. discriminate.
Qed.

Lemma decode_rune_zero u0 u : fst (decode_rune (u0 :: u)) = 0 -> u0 = 0.
Proof.
  intros Z.
  unfold decode_rune in Z. destruct (u0 <? 128) eqn:L; [exact Z|]. unfold rune_error in Z.
  destruct (in_range 194 223 u0) eqn:E2.
  { destruct u as [|b1 u]; [discriminate|]. destruct (is_cont b1) eqn:C; [|discriminate].
    cbn [fst] in Z. unfold is_cont, in_range in *. lia. }
  destruct (in_range 224 239 u0) eqn:E3.
  { destruct u as [|b1 [|b2 u]]; [discriminate..|].
    match type of Z with context [if ?X then _ else _] => destruct X eqn:C end; [|discriminate].
    cbn [fst] in Z. apply andb_prop in C as [C _].
    destruct (u0 =? 224) eqn:E224; destruct (u0 =? 237) eqn:E237; unfold in_range in *; lia. }
  destruct (in_range 240 244 u0) eqn:E4; [|discriminate].
  destruct u as [|b1 [|b2 [|b3 u]]]; [discriminate..|].
  match type of Z with context [if ?X then _ else _] => destruct X eqn:C end; [|discriminate].
  cbn [fst] in Z. apply andb_prop in C as [C _]. apply andb_prop in C as [C _].
  destruct (u0 =? 240) eqn:E240; destruct (u0 =? 244) eqn:E244; unfold in_range in *; lia.
Qed.
Lemma next_space_out ds t skip lit rb : Forall well_behaved ds -> ~ In 0 t -> lit = false ->
  is_space_rune (get_next_rune t) || (get_next_rune t =? 0) = true ->
  space_follows (map fst (ann ds skip lit rb t)).
Proof.
  intros W Nt -> I.
  unfold get_next_rune in I. destruct (skip_markers t) as [|u0 u] eqn:M.
  - assert (X : ann ds skip false rb t = []).
    { apply (explains_nil t); [now apply ann_explains|].
      pose proof (skip_markers_strip t) as G. destruct (strip t); [easy|]. destruct G as (? & G & _). congruence. }
    now rewrite X.
  - destruct (is_space_rune (fst (decode_rune (u0 :: u)))) eqn:SP.
    + destruct (decode_space_prefix u0 u SP) as (p & u' & Eu & Fp & Pu & H42 & H95 & Dec).
      cbn [app] in Eu. inversion Eu; subst u.
      destruct (ann_space ds W t skip false rb u0 (p ++ u') M Pu) as (k1 & l1 & r1 & E1).
      destruct (ann_nomark ds p k1 l1 r1 u' Fp) as (k2 & l2 & r2 & E2).
      rewrite E1, E2. unfold space_follows.
      change (u0 :: p ++ map fst (ann ds k2 l2 r2 u')) with ((u0 :: p) ++ map fst (ann ds k2 l2 r2 u')).
      rewrite Dec. now apply space_classes.
    + cbn [orb] in I. apply N.eqb_eq in I. exfalso. apply Nt. apply skip_markers_incl with (u := u).
      apply decode_rune_zero in I. now subst.
Qed.
Lemma tilde_lit ds s A B : Forall well_behaved ds -> Forall ticks_ok ds -> In is_strikethrough ds -> ~ In 0 s ->
  ann ds O false [] s = A ++ (126, Lit) :: B -> escaped_run A \/ space_follows (map fst B).
Proof.
  intros W V I N0 E.
  destruct (tick_lit ds s A 126 B W V E (or_intror eq_refl)) as [H|(rb & t & sk & Es & -> & F)]; [now left|].
  right. apply (first_skip_none _ _ _ _ _ F) in I. unfold is_strikethrough in I. cbn [N.eqb Pos.eqb negb] in I.
  apply next_space_out; auto.
  - intros It. apply N0. rewrite Es. apply in_app_iff. right. right. now right.
  - destruct (is_space_rune (get_next_rune t) || (get_next_rune t =? 0)); [easy|discriminate].
Qed.

(** ** From lines of the output to positions *)
Lemma split_on_app_line sep s : forall l, In l (split_on sep s) ->
  exists a z, s = a ++ l ++ z /\ ~ In sep l /\ (a = [] \/ exists a', a = a' ++ [sep]) /\ (z = [] \/ exists z', z = sep :: z').
Proof.
  assert (G : forall s, exists l0 ls, split_on sep s = l0 :: ls /\ ~ In sep l0 /\
     (exists z, s = l0 ++ z /\ (z = [] \/ exists z', z = sep :: z')) /\
     forall l, In l ls -> exists a z, s = a ++ l ++ z /\ ~ In sep l /\ (exists a', a = a' ++ [sep]) /\ (z = [] \/ exists z', z = sep :: z')).
  { clear s. induction s as [|c s IH].
    - exists [], []. repeat split; auto; [|easy]. exists []. auto.
    - destruct IH as (l0 & ls & E & N0 & (z & Es & Hz) & H). cbn [split_on]. rewrite E.
      destruct (c =? sep) eqn:Ec.
      + apply N.eqb_eq in Ec. subst c. exists [], (l0 :: ls). split; [easy|]. split; [easy|]. split.
        { exists (sep :: s). split; [easy|]. right. eauto. }
        intros l [<-|I].
        * exists [sep], z. split; [now rewrite Es|]. repeat split; auto. now exists [].
        * destruct (H l I) as (a & z1 & Es1 & N1 & (a' & ->) & Hz1). exists (sep :: a' ++ [sep]), z1.
          split; [now rewrite Es1|]. repeat split; auto. now exists (sep :: a').
      + apply N.eqb_neq in Ec. exists (c :: l0), ls. split; [easy|]. split.
        { intros [I|I]; [congruence|easy]. } split.
        { exists z. split; [now rewrite Es|easy]. }
        intros l I. destruct (H l I) as (a & z1 & Es1 & N1 & (a' & ->) & Hz1). exists (c :: a' ++ [sep]), z1.
        split; [now rewrite Es1|]. repeat split; auto. now exists (c :: a'). }
  intros l. destruct (G s) as (l0 & ls & E & N0 & (z & Es & Hz) & H). rewrite E. intros [<-|I].
  - exists [], z. repeat split; auto.
  - destruct (H l I) as (a & z1 & Es1 & N1 & Ha & Hz1). exists a, z1. repeat split; auto.
Qed.
Lemma skip_spaces_eq l : exists S, l = S ++ skip_spaces l /\ Forall (fun c => c = 32) S.
Proof.
  induction l as [|c l IH]; [exists []; split; [easy|constructor]|]. cbn [skip_spaces].
  destruct (c =? 32) eqn:E.
  - destruct IH as (S & E1 & F). exists (c :: S). split; [cbn; now f_equal|]. constructor; [lia|easy].
  - exists []. split; [easy|constructor].
Qed.
Definition ends (z : bytes) : Prop := z = [] \/ exists z', z = 10 :: z'.
Lemma map_fst_app (D : list kbyte) a b : map fst D = a ++ b -> exists A B, D = A ++ B /\ map fst A = a /\ map fst B = b.
Proof.
  revert D. induction a as [|x a IH]; intros D E; [now exists [], D|].
  destruct D as [|y D]; [discriminate|]. cbn in E. inversion E as [[E1 E2]].
  destruct (IH D E2) as (A & B & -> & <- & <-). exists (y :: A), B. repeat split.
Qed.
Lemma line_pos (D : list kbyte) l c r : In l (split_on 10 (map fst D)) -> skip_spaces l = c :: r ->
  exists A k B z, D = A ++ (c, k) :: B /\ starts_line A /\ map fst B = r ++ z /\ ends z /\ ~ In 10 (c :: r).
Proof.
  intros I E. apply split_on_app_line in I as (a & z & ED & NL & Ha & Hz).
  destruct (skip_spaces_eq l) as (S & El & FS). rewrite E in El.
  rewrite El, <- app_assoc in ED. apply map_fst_app in ED as (A1 & X & -> & EA & EX).
  apply map_fst_app in EX as (S1 & Y & -> & ES & EY). cbn [app] in EY.
  destruct Y as [|[c1 k] B]; [discriminate|]. cbn [map fst] in EY. inversion EY; subst c1.
  exists (A1 ++ S1), k, B, z. split; [now rewrite <- app_assoc|]. split.
  - exists A1, S1. split; [easy|]. split.
    { apply Forall_forall. intros x Ix. rewrite <- ES in FS. rewrite Forall_forall in FS. apply FS. now apply in_map. }
    destruct Ha as [->|(a' & ->)]; [left; now apply map_eq_nil in EA|]. right.
    apply map_fst_app in EA as (A2 & Z & -> & _ & EZ). destruct Z as [|[n kk] [|? ?]]; try discriminate.
    cbn in EZ. inversion EZ; subst. now exists A2, kk.
  - split; [easy|]. split; [exact Hz|]. intros I. apply NL. rewrite El. apply in_app_iff. now right.
Qed.

Lemma blank_or_end_ext r z : ends z -> blank_or_end r = true -> blank_or_end (r ++ z) = true.
Proof. intros [->|[z' ->]] H; destruct r; try easy; now rewrite app_nil_r. Qed.
Lemma hashes_ext z : ends z -> forall r n, hashes n r = true -> hashes n (r ++ z) = true.
Proof.
  intros Hz. induction r as [|c r IH]; intros n H.
  - destruct Hz as [->|[z' ->]]; [easy|]. cbn [app]. now rewrite hashes_cons.
  - cbn [app]. rewrite hashes_cons in *. destruct (c =? 35); [|now apply (blank_or_end_ext (c :: r))].
    destruct n; [easy|now apply IH].
Qed.
Lemma atx_ext s z : ends z -> atx_heading s = true -> atx_heading (s ++ z) = true.
Proof.
  intros Hz. destruct s as [|c t]; [easy|]. cbn [atx_heading app]. intros H. apply andb_prop in H as [-> H].
  now apply (hashes_ext z Hz).
Qed.
Lemma break_rest_ext z c : ends z -> c <> 10 -> forall r n, break_rest c n r = true -> break_rest c n (r ++ z) = true.
Proof.
  intros Hz Hc. induction r as [|x r IH]; intros n H.
  - destruct Hz as [->|[z' ->]]; [easy|]. cbn [app break_rest] in *. replace (10 =? c) with false by lia. exact H.
  - cbn [app break_rest] in *. destruct (x =? c); [now apply IH|]. destruct (x =? 32); [now apply IH|exact H].
Qed.
Lemma break_ext s z : ends z -> thematic_break s = true -> thematic_break (s ++ z) = true.
Proof.
  intros Hz. destruct s as [|c t]; [easy|]. cbn [thematic_break app]. intros H. apply andb_prop in H as [Hc H].
  rewrite Hc. cbn [andb]. change (c :: t ++ z) with ((c :: t) ++ z). apply break_rest_ext; auto. lia.
Qed.
Lemma only_blanks_ext z : ends z -> forall r, only_blanks r = true -> only_blanks (r ++ z) = true.
Proof.
  intros Hz. induction r as [|x r IH]; intros H.
  - destruct Hz as [->|[z' ->]]; easy.
  - cbn [app only_blanks] in *. destruct (x =? 10); [easy|]. apply andb_prop in H as [-> H]. now apply IH.
Qed.
Lemma underline_rest_ext z c : ends z -> c <> 10 -> forall r, underline_rest c r = true -> underline_rest c (r ++ z) = true.
Proof.
  intros Hz Hc. induction r as [|x r IH]; intros H.
  - destruct Hz as [->|[z' ->]]; [easy|]. cbn [app underline_rest] in *. replace (10 =? c) with false by lia. reflexivity.
  - cbn [app underline_rest] in *. destruct (x =? c); [now apply IH|]. now apply (only_blanks_ext z Hz (x :: r)).
Qed.
Lemma setext_ext s z : ends z -> setext_underline s = true -> setext_underline (s ++ z) = true.
Proof.
  intros Hz. destruct s as [|c t]; [easy|]. cbn [setext_underline app]. intros H. apply andb_prop in H as [Hc H].
  rewrite Hc. cbn [andb]. apply underline_rest_ext; auto. lia.
Qed.
Lemma bullet_ext s z : ends z -> bullet_item s = true -> bullet_item (s ++ z) = true.
Proof.
  intros Hz. destruct s as [|c t]; [easy|]. cbn [bullet_item app]. intros H. apply andb_prop in H as [-> H].
  now apply blank_or_end_ext.
Qed.
Lemma quote_ext s z : ends z -> block_quote s = true -> block_quote (s ++ z) = true.
Proof. intros Hz. now destruct s. Qed.
Lemma has_prefix_ext p z : forall s, has_prefix p s = true -> has_prefix p (s ++ z) = true.
Proof.
  induction p as [|x p IH]; intros s H; [easy|]. destruct s as [|y s]; [discriminate|]. cbn [app has_prefix] in *.
  apply andb_prop in H as [-> H]. now apply IH.
Qed.
Lemma fence_ext s z : ends z -> code_fence s = true -> code_fence (s ++ z) = true.
Proof.
  intros _ H. unfold code_fence in *. apply orb_prop in H as [H|H]; rewrite (has_prefix_ext _ z _ H); [easy|apply orb_true_r].
Qed.

(** ** Texts *)
Definition text_out (ds : list detector) (esc : N -> bool) (t : bytes) : bytes := unescape_content ds (escape_content esc t).
Definition text_ann ds esc t := ann ds O false [] (escape_content esc t).
Lemma text_ann_fst ds esc t : map fst (text_ann ds esc t) = text_out ds esc t.
Proof. unfold text_ann, text_out, unescape_content. apply ann_fst. Qed.
Lemma text_lit ds esc t A c k B : Forall well_behaved ds -> protects esc -> In c commonmark_escaped -> c <> 92 ->
  text_ann ds esc t = A ++ (c, k) :: B -> k = Lit.
Proof.
  intros W P I Hc E. destruct k; [|easy|].
  - exfalso. pose proof (escape_no_raw esc t (text_ann ds esc t) (ann_explains ds _ W O [])) as H.
    specialize (H c). rewrite E in H. specialize (H ltac:(apply in_app_iff; right; now left)).
    rewrite (P c I) in H.
    assert (forallb (fun c => (c <? 128) && negb (c =? 0)) commonmark_escaped = true) as G by reflexivity.
    rewrite forallb_forall in G. specialize (G c I). 
    assert (true = false) by (apply H; lia). discriminate.
  - exfalso. apply Hc. apply (ann_ins_92 ds (escape_content esc t) O false [] (c, Ins)); [|easy].
    unfold text_ann in E. rewrite E. apply in_app_iff. right. now left.
Qed.

Lemma text_line ds esc t (p : bytes -> bool) :
  Forall well_behaved ds -> protects esc ->
  (forall s z, ends z -> p s = true -> p (s ++ z) = true) ->
  p [] = false ->
  (forall c r, p (c :: r) = true -> In c commonmark_escaped /\ c <> 92) ->
  (forall s A x B, ann ds O false [] s = A ++ x :: B -> starts_line A -> p (map fst (x :: B)) = true -> snd x <> Lit) ->
  ~ some_line p (text_out ds esc t).
Proof.
  intros W P Ext P0 Pc L (l & I & Q). rewrite <- text_ann_fst in I.
  destruct (skip_spaces l) as [|c r] eqn:E; [congruence|].
  destruct (line_pos _ _ _ _ I E) as (A & k & B & z & ED & SL & EB & Hz & _).
  destruct (Pc c r Q) as [Ic Hc].
  pose proof (text_lit ds esc t A c k B W P Ic Hc ED) as ->.
  apply (L _ _ _ _ ED SL); [|easy]. cbn [map fst]. rewrite EB. now apply (Ext (c :: r) z Hz).
Qed.

Lemma text_atx ds esc t : bundled ds -> protects esc -> ~ some_line atx_heading (text_out ds esc t).
Proof.
  intros Bd P. pose proof (bundled_wb ds Bd) as W. apply text_line; auto using atx_ext.
  - intros c r H. cbn in H. apply andb_prop in H as [H _]. apply N.eqb_eq in H. subst. split; [|easy]. cbn; tauto.
  - intros s A x B E SL Q. apply (atx_line ds s A x B W (bundled_in ds is_atx_header Bd ltac:(cbn; tauto)) E SL Q).
Qed.
Lemma text_break ds esc t : bundled ds -> protects esc -> ~ some_line thematic_break (text_out ds esc t).
Proof.
  intros Bd P. pose proof (bundled_wb ds Bd) as W. apply text_line; auto using break_ext.
  - intros c r H. cbn in H. apply andb_prop in H as [H _].
    assert (c = 45 \/ c = 95 \/ c = 42) as [-> |[-> | ->]] by lia; (split; [cbn; tauto|easy]).
  - intros s A x B E SL Q. apply (break_line ds s A x B W (bundled_in ds is_divider Bd ltac:(cbn; tauto)) E SL Q).
Qed.
Lemma text_quote ds esc t : bundled ds -> protects esc -> ~ some_line block_quote (text_out ds esc t).
Proof.
  intros Bd P. pose proof (bundled_wb ds Bd) as W. apply text_line; auto using quote_ext.
  - intros c r H. cbn in H. apply N.eqb_eq in H. subst. split; [cbn; tauto|easy].
  - intros s A x B E SL Q. apply (bq_line ds s A x B W (bundled_in ds is_block_quote Bd ltac:(cbn; tauto)) E SL Q).
Qed.
Lemma text_bullet ds esc t : bundled ds -> protects esc -> ~ some_line bullet_item (text_out ds esc t).
Proof.
  intros Bd P. pose proof (bundled_wb ds Bd) as W. apply text_line; auto using bullet_ext.
  - intros c r H. cbn in H. apply andb_prop in H as [H _].
    assert (c = 45 \/ c = 43 \/ c = 42) as [-> |[-> | ->]] by lia; (split; [cbn; tauto|easy]).
  - intros s A x B E SL Q. apply (bullet_line ds s A x B W (bundled_in ds is_unordered_list Bd ltac:(cbn; tauto)) E SL Q).
Qed.
Lemma text_fence ds esc t : bundled ds -> protects esc -> ~ some_line code_fence (text_out ds esc t).
Proof.
  intros Bd P. pose proof (bundled_wb ds Bd) as W. apply text_line; auto using fence_ext.
  - intros c r H. unfold code_fence in H. cbn [has_prefix] in H. apply orb_prop in H as [H|H]; apply andb_prop in H as [H _];
      apply N.eqb_eq in H; subst; (split; [cbn; tauto|easy]).
  - intros s A x B E SL Q. apply (fence_line ds s A x B W (bundled_in ds is_fenced_code Bd ltac:(cbn; tauto)) E SL Q).
Qed.

Lemma drop_digits_eq l : exists G, l = G ++ drop_digits l /\ Forall (fun c => is_digit c = true) G.
Proof.
  induction l as [|c l IH]; [exists []; split; [easy|constructor]|]. cbn [drop_digits].
  destruct (is_digit c) eqn:E.
  - destruct IH as (S & E1 & F). exists (c :: S). split; [cbn; now f_equal|]. now constructor.
  - exists []. split; [easy|constructor].
Qed.
Lemma text_ordered ds esc t : bundled ds -> protects esc -> ~ some_line ordered_item (text_out ds esc t).
Proof.
  intros Bd P (l & I & Q). pose proof (bundled_wb ds Bd) as W. rewrite <- text_ann_fst in I.
  destruct (skip_spaces l) as [|c r] eqn:E; [discriminate|].
  destruct (line_pos _ _ _ _ I E) as (A & k & B & z & ED & SL & EB & Hz & _).
  cbn [ordered_item] in Q. apply andb_prop in Q as [Hd Q].
  destruct (drop_digits_eq r) as (G & Er & FG). destruct (drop_digits r) as [|d r'] eqn:Ed; [discriminate|].
  rewrite Er, <- app_assoc in EB. apply map_fst_app in EB as (G1 & Y & -> & EG & EY).
  destruct Y as [|[d1 k1] B1]; [discriminate|]. cbn [app map fst] in EY. inversion EY; subst d1.
  cbn [item_delimiter] in Q. apply andb_prop in Q as [Hdl Q].
  assert (ED' : text_ann ds esc t = (A ++ (c, k) :: G1) ++ (d, k1) :: B1) by (rewrite ED, <- app_assoc; reflexivity).
  assert (k1 = Lit).
  { apply (text_lit ds esc t _ d k1 B1 W P) with (3 := ED').
    - assert (d = 46 \/ d = 41) as [-> | ->] by lia; cbn; tauto.
    - lia. }
  subst k1. unfold text_ann in ED'.
  apply (ordered_line ds _ _ (d, Lit) B1 W (bundled_in ds is_ordered_list Bd ltac:(cbn; tauto)) ED'); [| |easy].
  - exists A, ((c, k) :: G1). repeat split; auto; [discriminate|]. constructor; [easy|].
    rewrite <- EG in FG. apply Forall_map in FG. exact FG.
  - cbn [map fst item_delimiter]. rewrite Hdl, H1. cbn [andb]. now apply blank_or_end_ext.
Qed.


Lemma setext_pos (D : list kbyte) before l1 l2 after c r : split_on 10 (map fst D) = before ++ l1 :: l2 :: after ->
  existsb (fun c => negb (c =? 32)) l1 = true -> skip_spaces l2 = c :: r ->
  exists A k B z, D = A ++ (c, k) :: B /\ starts_line_after_text A /\ map fst B = r ++ z /\ ends z.
Proof.
  intros E X E2.
  assert (N1 : ~ In 10 l1). { apply (split_nosep 10 (map fst D)). rewrite E. apply in_app_iff. right. now left. }
  pose proof (split_join 10 (map fst D)) as J. rewrite E in J.
  assert (J' : exists a z, map fst D = a ++ l1 ++ [10] ++ l2 ++ z /\ ends z).
  { assert (K : exists z, join [10] (l1 :: l2 :: after) = l1 ++ [10] ++ l2 ++ z /\ ends z).
    { rewrite join_cons by easy. destruct after as [|q qs].
      - exists []. split; [cbn; now rewrite app_nil_r|now left].
      - rewrite join_cons by easy. eexists. split; [reflexivity|]. right. cbn. eauto. }
    destruct K as (z & K & Hz). destruct before as [|b0 before].
    - exists [], z. cbn [app] in *. rewrite <- J, K. auto.
    - exists (join [10] (b0 :: before) ++ [10]), z. rewrite join_app in J by easy. rewrite K in J.
      split; [now rewrite <- J, <- !app_assoc|easy]. }
  destruct J' as (a & z & ED & Hz).
  destruct (skip_spaces_eq l2) as (S & El & FS). rewrite E2 in El. rewrite El in ED.
  apply map_fst_app in ED as (A0 & Y & -> & _ & EY).
  apply map_fst_app in EY as (L & Y1 & -> & EL & EY).
  apply map_fst_app in EY as (NL & Y2 & -> & EN & EY).
  destruct NL as [|[n kn] [|? ?]]; try discriminate. cbn in EN. inversion EN; subst n.
  rewrite <- app_assoc in EY. apply map_fst_app in EY as (S1 & Y3 & -> & ES & EY).
  destruct Y3 as [|[c1 k] B]; [discriminate|]. cbn [app map fst] in EY. inversion EY; subst c1.
  exists (A0 ++ L ++ (10, kn) :: S1), k, B, z. split; [rewrite <- !app_assoc; cbn; now rewrite <- ?app_assoc|].
  split; [|auto]. exists A0, L, kn, S1. split; [easy|]. rewrite <- ES in FS. rewrite <- EL in N1, X. split.
  { apply Forall_map in FS. exact FS. } split.
  - apply Forall_forall. intros x Ix Hx. apply N1. rewrite <- Hx. now apply in_map.
  - apply existsb_exists in X as (y & Iy & Hy). apply in_map_iff in Iy as (x & <- & Ix).
    apply Exists_exists. exists x. split; [easy|]. lia.
Qed.
Lemma text_setext ds esc t : bundled ds -> protects esc -> ~ some_setext (text_out ds esc t).
Proof.
  intros Bd P (before & l1 & l2 & after & E & X & Q). pose proof (bundled_wb ds Bd) as W. rewrite <- text_ann_fst in E.
  destruct (skip_spaces l2) as [|c r] eqn:E2; [discriminate|].
  destruct (setext_pos _ _ _ _ _ _ _ E X E2) as (A & k & B & z & ED & SL & EB & Hz).
  assert (k = Lit).
  { pose proof Q as Q'. cbn in Q'. apply andb_prop in Q' as [Hc _].
    apply (text_lit ds esc t A c k B W P) with (3 := ED).
    - assert (c = 61 \/ c = 45) as [-> | ->] by lia; cbn; tauto.
    - lia. }
  subst k.
  apply (setext_line ds _ A (c, Lit) B W (bundled_in ds is_setext_header Bd ltac:(cbn; tauto)) ED SL); [|easy].
  cbn [map fst]. rewrite EB. now apply (setext_ext (c :: r) z Hz).
Qed.

(** With tabs: a text without tabs yields no tabs. *)
Lemma text_out_no9 ds esc t : Forall well_behaved ds -> ~ In 9 t -> ~ In 9 (text_out ds esc t).
Proof.
  intros W H I. rewrite <- text_ann_fst in I. apply in_map_iff in I as ([c k] & Ec & I). cbn in Ec. subst c.
  pose proof (ann_explains ds (escape_content esc t) W O []) as EX. apply explains_strip in EX.
  rewrite escape_strip in EX. assert (J : In 9 (gb (text_ann ds esc t))).
  { unfold gb. apply in_map_iff. exists (9, k). split; [easy|]. apply filter_In. split; [easy|].
    destruct k; try easy. pose proof (ann_ins_92 ds _ _ _ _ _ I eq_refl). discriminate. }
  unfold text_ann in J. rewrite <- EX in J. unfold plain in J. apply in_flat_map in J as (x & Ix & J).
  destruct (x =? 0); [cbn in J; intuition discriminate|]. destruct (x =? 7); [easy|]. destruct J as [->|[]]. easy.
Qed.
Lemma text_break_tabs ds esc t : bundled ds -> protects esc -> ~ In 9 t ->
  ~ some_line thematic_break_tabs (text_out ds esc t).
Proof.
  intros Bd P H (l & I & Q). apply (text_break ds esc t Bd P). exists l. split; [exact I|].
  unfold thematic_break_tabs in Q. rewrite <- Q. f_equal.
  assert (N9 : ~ In 9 (skip_spaces l)).
  { intros J. apply (text_out_no9 ds esc t (bundled_wb _ Bd) H).
    apply split_on_app_line in I as (a & z & -> & _). apply in_app_iff. right. apply in_app_iff. left.
    destruct (skip_spaces_eq l) as (S & -> & _). apply in_app_iff. now right. }
  symmetry. rewrite <- (map_id (skip_spaces l)) at 2. apply map_ext_in. intros x Ix.
  destruct (x =? 9) eqn:E9; [|easy]. apply N.eqb_eq in E9. now subst.
Qed.

(** ** What the reader gets back *)
Lemma text_read ds esc t : bundled ds -> protects esc ->
  read_escapes (text_out ds esc t) = plain t.
Proof.
  intros Bd P. pose proof (bundled_wb ds Bd) as W. pose proof (bundled_rg ds Bd) as V.
  rewrite <- text_ann_fst, read_escapes_gb.
  - rewrite <- (escape_strip esc t). symmetry. apply explains_strip. now apply ann_explains.
  - intros A B E. exact (backslash_lit ds _ A B W V (bundled_in ds is_backslash Bd ltac:(cbn; tauto)) E).
  - intros A B E. pose proof (escape_no_raw esc t (text_ann ds esc t) (ann_explains ds _ W O [])) as H.
    specialize (H 92). rewrite E in H. specialize (H ltac:(apply in_app_iff; right; now left)).
    rewrite (P 92) in H by (cbn; tauto). assert (true = false) by (apply H; lia). discriminate.
  - intros A c B E. unfold text_ann in E. split.
    + apply (ann_ins_92 ds (escape_content esc t) O false [] (c, Ins)); [|easy].
      rewrite E. apply in_app_iff. right. now left.
    + exact (ann_ins_next ds _ W _ _ _ _ _ _ E).
Qed.

(** ** Code spans *)
Definition no_three (s : bytes) : Prop := forall a x y z r, s = a ++ x :: y :: z :: r ->
  is_tick x = true -> is_tick y = true -> is_tick z = true -> False.
Definition tick_one (d : detector) : Prop :=
  forall rb c af n, d rb c af = Some n -> is_tick c = true -> (1 < n)%nat ->
    exists y z r, strip af = y :: z :: r /\ is_tick y = true /\ is_tick z = true.
Lemma fence_scan_two t : forall n d k m, fence_scan n d t = (k, m) -> (n + 2 <= k)%nat ->
  exists y z r, strip t = y :: z :: r /\ is_tick y = true /\ is_tick z = true.
Proof.
  assert (G1 : forall t n d k m, fence_scan n d t = (k, m) -> (n + 1 <= k)%nat ->
     exists z r, strip t = z :: r /\ is_tick z = true).
  { clear t. induction t as [|c t IH]; intros n d k m E L; cbn [fence_scan] in E; [inversion E; lia|].
    unfold strip. cbn [filter]. unfold marker_esc in E. destruct (c =? 7) eqn:E7; cbn [negb].
    - exact (IH _ _ _ _ E L).
    - destruct ((c =? 96) || (c =? 126)) eqn:Et; [|inversion E; lia]. exists c, (strip t). split; [easy|exact Et]. }
  induction t as [|c t IH]; intros n d k m E L; cbn [fence_scan] in E; [inversion E; lia|].
  unfold strip. cbn [filter]. unfold marker_esc in E. destruct (c =? 7) eqn:E7; cbn [negb].
  - exact (IH _ _ _ _ E L).
  - destruct ((c =? 96) || (c =? 126)) eqn:Et; [|inversion E; lia].
    destruct (G1 t (S n) (S d) k m E ltac:(lia)) as (z & r & Ez & Tz).
    exists c, z, r. fold (strip t). rewrite Ez. repeat split; auto.
Qed.
Lemma to_one d : (forall rb c af n, d rb c af = Some n -> n = 1%nat) -> tick_one d.
Proof. intros H rb c af n E _ L. apply H in E. lia. Qed.
Ltac simple_to :=
  apply to_one; intros rb c af n H;
  match type of H with
  | ?d rb c af = Some n => unfold d in H
  end;
  repeat match type of H with
  | (if ?x then _ else _) = Some _ => destruct x eqn:?; try discriminate
  end; try (inversion H; reflexivity).
Lemma to_fence : tick_one is_fenced_code.
Proof.
  intros rb c af n H _ L. unfold is_fenced_code in H.
  destruct (negb ((c =? 96) || (c =? 126))) eqn:E; [discriminate|].
  destruct (only_blank_before rb) eqn:B; [|discriminate]. cbn [negb] in H.
  destruct (fence_scan 1 1 af) as [k m] eqn:F. destruct (Nat.ltb k 3) eqn:K; [discriminate|].
  apply (fence_scan_two af 1 1 k m F). lia.
Qed.
Lemma only_to ds : only_bundled ds -> Forall tick_one ds.
Proof.
  assert (HA : Forall tick_one commonmark_detectors).
  { unfold commonmark_detectors; repeat apply Forall_cons; try apply Forall_nil.
    - simple_to.
    - simple_to.
    - intros rb c af n H T _. unfold is_atx_header in H. unfold is_tick in T.
      destruct (c =? 35) eqn:E; [lia|discriminate].
    - simple_to. now apply setext_back_one in H.
    - intros rb c af n H T _. unfold is_divider in H. unfold is_tick in T.
      destruct ((c =? 45) || (c =? 95) || (c =? 42)) eqn:E; [lia|discriminate].
    - simple_to.
    - simple_to.
    - simple_to. 2: now apply bracket_scan_one in H.
      destruct af as [|d af]; [discriminate|]. destruct (d =? 91); [now inversion H|discriminate].
    - exact to_fence.
    - simple_to.
    - simple_to. }
  intros I. apply (incl_Forall I). apply Forall_app. split; [exact HA|]. constructor; [simple_to|constructor].
Qed.
Lemma bundled_to ds : bundled ds -> Forall tick_one ds.
Proof. intros [_ I]. now apply only_to. Qed.
(** No jump starts at a backtick or tilde. *)
Lemma reach_no_tick_jump ds s : Forall well_behaved ds -> Forall ticks_ok ds -> Forall tick_one ds -> no_three (strip s) ->
  forall rb A skip lit t, reach ds s rb A skip lit t -> skip <> O ->
  Forall (fun x => x <> 96 /\ x <> 126) (firstn (S skip) t).
Proof.
  intros W V T3 N3. induction 1 as [|rb A skip lit c t Hc R IH|rb A k lit t R IH|rb A lit d t R IH F|rb A lit d t n R IH F]; intros HS.
  - easy.
  - destruct skip as [|[|k]]; try easy. cbn [pred] in *. specialize (IH ltac:(discriminate)). cbn [firstn] in *. now inversion IH.
  - destruct k as [|k]; [easy|]. specialize (IH ltac:(discriminate)). cbn [firstn] in *. now inversion IH.
  - easy.
  - apply first_skip_in in F as (dd & I & F). rewrite Forall_forall in V, T3.
    pose proof (V dd I _ _ _ _ F ltac:(lia)) as Q. replace (S (pred n)) with n by lia.
    destruct Q as [Q|Q]; [|exact Q]. exfalso.
    destruct (N.eq_dec d 7) as [->|D7].
    { rewrite Forall_forall in W. destruct (W dd I _ _ _ _ F) as (_ & P & _). discriminate. }
    assert (is_tick d = true). { destruct n as [|n]; [lia|]. cbn [firstn] in Q. inversion Q; subst. unfold is_tick. lia. }
    destruct (T3 dd I _ _ _ _ F H ltac:(lia)) as (y & z & r & E & Ty & Tz).
    apply (N3 (strip (rev rb)) d y z r); auto.
    rewrite (reach_in _ _ _ _ _ _ _ R), strip_app. f_equal. unfold strip. cbn [filter].
    change (7 =? 7) with true. cbn [negb]. apply N.eqb_neq in D7. rewrite D7. cbn [negb]. f_equal. exact E.
Qed.
Lemma backtick_esc ds s A B : Forall well_behaved ds -> Forall ticks_ok ds -> Forall tick_one ds -> In is_inline_code ds ->
  no_three (strip s) -> ann ds O false [] s = A ++ (96, Lit) :: B -> escaped_here A.
Proof.
  intros W V T3 I N3 E.
  destruct (ann_lit_full ds s W A 96 B E) as (rb & A0 & skip & lit & t & skip' & R & H7' & HB & K).
  destruct K as [(_ & -> & _)|[(-> & -> & F)|(HK & -> & _)]].
  - now exists A0.
  - apply (first_skip_none _ _ _ _ _ F) in I. discriminate.
  - pose proof (reach_no_tick_jump ds s W V T3 N3 _ _ _ _ _ R HK) as Fr.
    destruct skip as [|k]; [easy|]. cbn [firstn] in Fr. inversion Fr as [|? ? _ Fr']; subst. inversion Fr'; subst. lia.
Qed.
Lemma no_code_span D :
  (forall A B, D = A ++ (92, Lit) :: B -> escaped_here A) ->
  (forall A B, D = A ++ (96, Lit) :: B -> escaped_here A) ->
  (forall A B, D <> A ++ (92, Raw) :: B) -> (forall A B, D <> A ++ (96, Raw) :: B) ->
  (forall A c B, D = A ++ (c, Ins) :: B -> c = 92 /\ exists d B', B = (d, Lit) :: B' /\ ascii_punct d = true) ->
  code_span_opens (map fst D) = false.
Proof.
  assert (G : forall n D A0, (List.length D <= n)%nat -> ~ escaped_here A0 ->
    (forall A B, A0 ++ D = A ++ (92, Lit) :: B -> escaped_here A) ->
    (forall A B, A0 ++ D = A ++ (96, Lit) :: B -> escaped_here A) ->
    (forall A B, A0 ++ D <> A ++ (92, Raw) :: B) -> (forall A B, A0 ++ D <> A ++ (96, Raw) :: B) ->
    (forall A c B, A0 ++ D = A ++ (c, Ins) :: B -> c = 92 /\ exists d B', B = (d, Lit) :: B' /\ ascii_punct d = true) ->
    code_spans n (map fst D) = false).
  { induction n as [|n IH]; intros E A0 L NE H1 H2 H3 H4 H5; [easy|].
    destruct E as [|[c k] D']; [easy|]. cbn [map fst code_spans].
    assert (NX : forall A x, snd x <> Ins -> ~ escaped_here (A ++ [x])).
    { intros A x Hx (A1 & EA). apply app_inj_tail in EA as [_ ->]. now apply Hx. }
    destruct k.
    - assert (c <> 92) by (intros ->; now apply (H3 A0 D')). assert (c <> 96) by (intros ->; now apply (H4 A0 D')).
      replace (c =? 92) with false by lia. replace (c =? 96) with false by lia.
      apply (IH D' (A0 ++ [(c, Raw)])); [cbn in L; lia|now apply NX|..]; rewrite <- app_assoc; auto.
    - assert (c <> 92) by (intros ->; now apply NE, (H1 A0 D')). assert (c <> 96) by (intros ->; now apply NE, (H2 A0 D')).
      replace (c =? 92) with false by lia. replace (c =? 96) with false by lia.
      apply (IH D' (A0 ++ [(c, Lit)])); [cbn in L; lia|now apply NX|..]; rewrite <- app_assoc; auto.
    - destruct (H5 A0 c D' eq_refl) as (-> & d & B' & -> & P). cbn [map fst]. rewrite N.eqb_refl, P.
      apply (IH B' (A0 ++ [(92, Ins); (d, Lit)])); [cbn in L; lia| |..]; try (rewrite <- app_assoc; auto).
      replace (A0 ++ [(92, Ins); (d, Lit)]) with ((A0 ++ [(92, Ins)]) ++ [(d, Lit)]) by now rewrite <- app_assoc.
      now apply NX. }
  intros. unfold code_span_opens. apply (G _ D []); auto.
  - rewrite map_length. lia.
  - intros (A & E). destruct A; discriminate.
Qed.
Lemma text_code_span ds esc t : bundled ds -> protects esc -> no_three (plain t) ->
  code_span_opens (text_out ds esc t) = false.
Proof.
  intros Bd P N3. pose proof (bundled_wb ds Bd) as W. pose proof (bundled_rg ds Bd) as V.
  rewrite <- text_ann_fst. apply no_code_span.
  - intros A B E. exact (backslash_lit ds _ A B W V (bundled_in ds is_backslash Bd ltac:(cbn; tauto)) E).
  - intros A B E. apply (backtick_esc ds _ A B W (bundled_tk _ Bd) (bundled_to _ Bd)
      (bundled_in ds is_inline_code Bd ltac:(cbn; tauto))) with (2 := E). now rewrite escape_strip.
  - intros A B E. pose proof (escape_no_raw esc t (text_ann ds esc t) (ann_explains ds _ W O [])) as H.
    specialize (H 92). rewrite E in H. specialize (H ltac:(apply in_app_iff; right; now left)).
    rewrite (P 92) in H by (cbn; tauto). assert (true = false) by (apply H; lia). discriminate.
  - intros A B E. pose proof (escape_no_raw esc t (text_ann ds esc t) (ann_explains ds _ W O [])) as H.
    specialize (H 96). rewrite E in H. specialize (H ltac:(apply in_app_iff; right; now left)).
    rewrite (P 96) in H by (cbn; tauto). assert (true = false) by (apply H; lia). discriminate.
  - intros A c B E. unfold text_ann in E. split.
    + apply (ann_ins_92 ds (escape_content esc t) O false [] (c, Ins)); [|easy].
      rewrite E. apply in_app_iff. right. now left.
    + exact (ann_ins_next ds _ W _ _ _ _ _ _ E).
Qed.
