(** Proofs about escaping, continued: the bundled detectors satisfy the requirements; escaping of plain text; the literal
    two-pass loop of the Go code. *)
From Coq Require Import List NArith Bool Lia Arith ZifyBool ZifyNat ZifyN.
From Verif Require Import Bytes TextUtils Escape SpecEscape EscapeFacts EscapeFacts2 EscapeFacts3.
Import ListNotations.
Open Scope N_scope.
Open Scope list_scope.

(** ** Bundled detectors *)
Lemma atx_scan_region af : forall n d m, (1 <= d)%nat -> atx_scan n d af = Some m ->
  m = 1%nat \/ (d <= m)%nat /\ Forall (fun x => x = 7 \/ x = 35) (firstn (m - d) af).
Proof.
  induction af as [|c t IH]; intros n d m Hd H; cbn [atx_scan] in H.
  - inversion H; now left.
  - destruct (c =? 35) eqn:E.
    + destruct (Nat.ltb 6 (S n)); [discriminate|]. apply IH in H as [H|[L F]]; [now left| |lia].
      right. split; [lia|]. replace (m - d)%nat with (S (m - S d)) by lia. cbn [firstn]. constructor; [lia|easy].
    + unfold marker_esc in H. destruct (c =? 7) eqn:E7.
      * apply IH in H as [H|[L F]]; [now left| |lia].
        right. split; [lia|]. replace (m - d)%nat with (S (m - S d)) by lia. cbn [firstn]. constructor; [lia|easy].
      * destruct ((c =? 32) || (c =? 9) || (c =? 10) || (c =? 13)); [|discriminate]. inversion H; subst.
        right. split; [lia|]. rewrite Nat.sub_diag. constructor.
Qed.
Lemma divider_scan_region c af : forall n d m, divider_scan c n d af = Some m ->
  exists reg rest, af = reg ++ rest /\ (List.length reg = m - d)%nat /\ (d <= m)%nat /\
    Forall (fun x => x = 7 \/ x = 32 \/ x = c) reg /\ (rest = [] \/ exists r, rest = 10 :: r).
Proof.
  induction af as [|x t IH]; intros n d m H; cbn [divider_scan] in H.
  - destruct (Nat.leb 3 n); [|discriminate]. inversion H; subst. exists [], [].
    rewrite Nat.sub_diag. repeat split; auto.
  - unfold marker_esc, cSP, cNL in H.
    destruct (x =? 7) eqn:E7; [|destruct (x =? 32) eqn:E32; [|destruct (x =? c) eqn:Ec]].
    1,2,3: apply IH in H as (reg & rest & -> & L & D & F & R); exists (x :: reg), rest; cbn [app List.length];
      repeat split; auto; [lia|lia|constructor; auto; lia].
    destruct (x =? 10) eqn:E10; [|discriminate]. destruct (Nat.leb 3 n); [|discriminate].
    inversion H; subst. apply N.eqb_eq in E10. subst. exists [], (10 :: t).
    rewrite Nat.sub_diag. repeat split; auto. right; eauto.
Qed.
Lemma fence_scan_region af : forall n d, let '(_, m) := fence_scan n d af in
  (d <= m)%nat /\ Forall (fun x => x = 7 \/ x = 96 \/ x = 126) (firstn (m - d) af).
Proof.
  induction af as [|c t IH]; intros n d; cbn [fence_scan].
  - rewrite Nat.sub_diag. split; [lia|constructor].
  - unfold marker_esc. destruct (c =? 7) eqn:E7.
    + specialize (IH n (S d)). destruct (fence_scan n (S d) t) as [k m]. destruct IH as [L F].
      split; [lia|]. replace (m - d)%nat with (S (m - S d)) by lia. cbn [firstn]. constructor; [lia|easy].
    + destruct ((c =? 96) || (c =? 126)) eqn:E.
      * specialize (IH (S n) (S d)). destruct (fence_scan (S n) (S d) t) as [k m]. destruct IH as [L F].
        split; [lia|]. replace (m - d)%nat with (S (m - S d)) by lia. cbn [firstn]. constructor; [lia|easy].
      * rewrite Nat.sub_diag. split; [lia|constructor].
Qed.
Lemma Forall_no10 (P : N -> Prop) l : (forall x, P x -> x <> 10) -> Forall P l -> ~ In 10 l.
Proof. intros H F I. rewrite Forall_forall in F. exact (H 10 (F 10 I) eq_refl). Qed.

Ltac simple_wb :=
  intros rb c af n H;
  match type of H with
  | ?d rb c af = Some n => unfold d in H
  end;
  repeat match type of H with
  | (if ?x then _ else _) = Some _ => destruct x eqn:?; try discriminate
  end;
  try (inversion H; subst; split; [lia|]; split; [unfold ascii_punct, in_range in *; lia|lia]).

Lemma wb_italic : well_behaved is_italic_or_bold. Proof. unfold well_behaved. simple_wb. Qed.
Lemma wb_quote : well_behaved is_block_quote. Proof. unfold well_behaved. simple_wb. Qed.
Lemma wb_strike : well_behaved is_strikethrough. Proof. unfold well_behaved. simple_wb. Qed.
Lemma wb_inline : well_behaved is_inline_code. Proof. unfold well_behaved. simple_wb. Qed.
Lemma wb_backslash : well_behaved is_backslash. Proof. unfold well_behaved. simple_wb. Qed.
Lemma wb_unordered : well_behaved is_unordered_list. Proof. unfold well_behaved. simple_wb. Qed.
Lemma wb_ordered : well_behaved is_ordered_list. Proof. unfold well_behaved. simple_wb. Qed.
Lemma bracket_scan_one t n : bracket_scan t = Some n -> n = 1%nat.
Proof.
  induction t as [|c t IH]; cbn [bracket_scan]; [discriminate|].
  destruct (c =? cNL); [discriminate|]. destruct (c =? 93); [now inversion 1|exact IH].
Qed.
Lemma wb_image : well_behaved is_image_or_link.
Proof.
  intros rb c af n H. unfold is_image_or_link in H.
  assert (n = 1%nat /\ (c = 33 \/ c = 91)) as [-> Hc].
  { destruct (c =? 33) eqn:E.
    - destruct af as [|d af]; [discriminate|]. destruct (d =? 91); [|discriminate]. inversion H. split; [easy|lia].
    - destruct (c =? 91) eqn:E2; [|discriminate]. apply bracket_scan_one in H. split; [easy|lia]. }
  split; [lia|]. split; [unfold ascii_punct, in_range; lia|lia].
Qed.
Lemma setext_back_one rb : forall nl n, setext_back nl rb = Some n -> n = 1%nat.
Proof.
  induction rb as [|c t IH]; intros nl n; cbn [setext_back]; [discriminate|].
  destruct ((c =? marker_esc) || (c =? cSP)); [apply IH|]. destruct (c =? cNL); [apply IH|].
  destruct nl as [|[|nl]]; try discriminate. now inversion 1.
Qed.
Lemma wb_setext : well_behaved is_setext_header.
Proof.
  intros rb c af n H. unfold is_setext_header in H.
  destruct (negb ((c =? 61) || (c =? 45))) eqn:E; [discriminate|].
  apply setext_back_one in H. subst. split; [lia|]. split; [unfold ascii_punct, in_range; lia|lia].
Qed.
Lemma wb_atx : well_behaved is_atx_header.
Proof.
  intros rb c af n H. unfold is_atx_header in H.
  destruct (negb (c =? 35)) eqn:E; [discriminate|].
  destruct (only_blank_before rb) eqn:B; [|discriminate].
  apply atx_scan_region in H as [->|[L F]]; [| |lia].
  - split; [lia|]. split; [unfold ascii_punct, in_range; lia|lia].
  - split; [lia|]. split; [unfold ascii_punct, in_range; lia|]. intros _. split; [easy|].
    replace (pred n) with (n - 1)%nat by lia. apply Forall_no10 with (2 := F). lia.
Qed.
Lemma wb_divider : well_behaved is_divider.
Proof.
  intros rb c af n H. unfold is_divider in H.
  destruct (negb ((c =? 45) || (c =? 95) || (c =? 42))) eqn:E; [discriminate|].
  destruct (only_blank_before rb) eqn:B; [|discriminate].
  apply divider_scan_region in H as (reg & rest & -> & L & D & F & R).
  split; [lia|]. split; [unfold ascii_punct, in_range; lia|]. intros _. split; [easy|].
  replace (pred n) with (List.length reg) by lia. rewrite firstn_app, Nat.sub_diag, firstn_all, firstn_O, app_nil_r.
  apply Forall_no10 with (2 := F). lia.
Qed.
Lemma wb_fence : well_behaved is_fenced_code.
Proof.
  intros rb c af n H. unfold is_fenced_code in H.
  destruct (negb ((c =? 96) || (c =? 126))) eqn:E; [discriminate|].
  destruct (only_blank_before rb) eqn:B; [|discriminate]. cbn [negb] in H.
  pose proof (fence_scan_region af 1 1) as G. destruct (fence_scan 1 1 af) as [k m]. destruct G as [L F].
  destruct (Nat.ltb k 3); [discriminate|]. inversion H; subst m.
  split; [lia|]. split; [unfold ascii_punct, in_range; lia|]. intros _. split; [easy|].
  replace (pred n) with (n - 1)%nat by lia. apply Forall_no10 with (2 := F). lia.
Qed.

Lemma rg_one d : (forall rb c af n, d rb c af = Some n -> n = 1%nat) -> region_ok d.
Proof. intros H rb c af n E L. apply H in E. lia. Qed.
Ltac simple_rg :=
  apply rg_one; intros rb c af n H;
  match type of H with
  | ?d rb c af = Some n => unfold d in H
  end;
  repeat match type of H with
  | (if ?x then _ else _) = Some _ => destruct x eqn:?; try discriminate
  end; try (inversion H; reflexivity).
Lemma rg_italic : region_ok is_italic_or_bold. Proof. simple_rg. Qed.
Lemma rg_quote : region_ok is_block_quote. Proof. simple_rg. Qed.
Lemma rg_strike : region_ok is_strikethrough. Proof. simple_rg. Qed.
Lemma rg_inline : region_ok is_inline_code. Proof. simple_rg. Qed.
Lemma rg_backslash : region_ok is_backslash. Proof. simple_rg. Qed.
Lemma rg_unordered : region_ok is_unordered_list. Proof. simple_rg. Qed.
Lemma rg_ordered : region_ok is_ordered_list. Proof. simple_rg. Qed.
Lemma rg_image : region_ok is_image_or_link.
Proof.
  simple_rg. 2: now apply bracket_scan_one in H.
  destruct af as [|d af]; [discriminate|]. destruct (d =? 91); [now inversion H|discriminate].
Qed.
Lemma rg_setext : region_ok is_setext_header.
Proof. simple_rg. now apply setext_back_one in H. Qed.
Lemma rg_atx : region_ok is_atx_header.
Proof.
  intros rb c af n H L. unfold is_atx_header in H.
  destruct (negb (c =? 35)) eqn:E; [discriminate|].
  destruct (only_blank_before rb) eqn:B; [|discriminate].
  apply atx_scan_region in H as [->|[_ F]]; [lia| |lia].
  right. unfold fence_region. replace n with (S (n - 1)) by lia. cbn [firstn]. constructor; [lia|].
  apply Forall_impl with (2 := F). lia.
Qed.
Lemma rg_fence : region_ok is_fenced_code.
Proof.
  intros rb c af n H L. unfold is_fenced_code in H.
  destruct (negb ((c =? 96) || (c =? 126))) eqn:E; [discriminate|].
  destruct (only_blank_before rb) eqn:B; [|discriminate]. cbn [negb] in H.
  pose proof (fence_scan_region af 1 1) as G. destruct (fence_scan 1 1 af) as [k m]. destruct G as [_ F].
  destruct (Nat.ltb k 3); [discriminate|]. inversion H; subst m.
  right. unfold fence_region. replace n with (S (n - 1)) by lia. cbn [firstn]. constructor; [lia|].
  apply Forall_impl with (2 := F). lia.
Qed.
Lemma rg_divider : region_ok is_divider.
Proof.
  intros rb c af n H Ln. unfold is_divider in H.
  destruct (negb ((c =? 45) || (c =? 95) || (c =? 42))) eqn:E; [discriminate|].
  destruct (only_blank_before rb) eqn:B; [|discriminate].
  apply divider_scan_region in H as (reg & rest & -> & L & D & F & R).
  left. exists c, (c :: reg), rest. cbn [app List.length]. repeat split; auto; try lia.
Qed.

Lemma only_wb ds : only_bundled ds -> Forall well_behaved ds.
Proof.
  assert (H : Forall well_behaved commonmark_detectors).
  { unfold commonmark_detectors; repeat apply Forall_cons; try apply Forall_nil; auto using wb_italic, wb_quote, wb_inline, wb_backslash, wb_unordered, wb_ordered, wb_image,
      wb_setext, wb_atx, wb_divider, wb_fence. }
  intros I. apply (incl_Forall I). apply Forall_app. split; [exact H|]. constructor; [exact wb_strike|constructor].
Qed.
Lemma bundled_wb ds : bundled ds -> Forall well_behaved ds.
Proof. intros [_ I]. now apply only_wb. Qed.
Lemma only_rg ds : only_bundled ds -> Forall region_ok ds.
Proof.
  assert (H : Forall region_ok commonmark_detectors).
  { unfold commonmark_detectors; repeat apply Forall_cons; try apply Forall_nil; auto using rg_italic, rg_quote, rg_inline, rg_backslash, rg_unordered, rg_ordered, rg_image,
      rg_setext, rg_atx, rg_divider, rg_fence. }
  intros I. apply (incl_Forall I). apply Forall_app. split; [exact H|]. constructor; [exact rg_strike|constructor].
Qed.
Lemma bundled_rg ds : bundled ds -> Forall region_ok ds.
Proof. intros [_ I]. now apply only_rg. Qed.
Lemma bundled_in ds d : bundled ds -> In d commonmark_detectors -> In d ds.
Proof. intros [I _]. apply I. Qed.

(** ** The literal loop of the Go code *)
Lemma mark_loop_acc ds chars f : forall i m, mark_loop ds chars f i m = mark_loop ds chars f i [] ++ m.
Proof.
  induction f as [|f IH]; intros i m; cbn [mark_loop]; [easy|].
  destruct (Nat.leb (List.length chars) i); [easy|].
  destruct (negb (nth i chars 0 =? marker_esc)); [apply IH|].
  destruct (Nat.leb (List.length chars) (S i)); [easy|].
  destruct (first_skip _ _ _ _); [|apply IH].
  rewrite IH, (IH _ [i]), <- app_assoc. reflexivity.
Qed.
Lemma mark_loop_ge ds chars f : (forall rb c af n, first_skip ds rb c af = Some n -> (1 <= n)%nat) ->
  forall i x, In x (mark_loop ds chars f i []) -> (i <= x)%nat.
Proof.
  intros P. induction f as [|f IH]; intros i x; cbn [mark_loop]; [easy|].
  destruct (Nat.leb (List.length chars) i); [easy|].
  destruct (negb (nth i chars 0 =? marker_esc)); [intros H; apply IH in H; lia|].
  destruct (Nat.leb (List.length chars) (S i)); [easy|].
  destruct (first_skip _ _ _ _) as [n|] eqn:E; [|intros H; apply IH in H; lia].
  rewrite mark_loop_acc, in_app_iff. intros [H|[->|[]]]; [|lia]. apply IH in H. lia.
Qed.
Lemma existsb_marks l x : existsb (Nat.eqb x) l = true <-> In x l.
Proof.
  rewrite existsb_exists. split.
  - intros (y & I & E). apply Nat.eqb_eq in E. now subst.
  - intros I. exists x. split; [easy|apply Nat.eqb_refl].
Qed.

Lemma unescape_go_loop ds : (forall rb c af n, first_skip ds rb c af = Some n -> (1 <= n)%nat) ->
  forall s pre chars skip f m, chars = pre ++ s ->
    (List.length chars <= f + List.length pre + skip)%nat -> Forall (fun x => (x < List.length pre)%nat) m ->
    rebuild (mark_loop ds chars f (List.length pre + skip) m) (List.length pre) s = unescape_from ds skip (rev pre) s.
Proof.
  intros P. induction s as [|c t IH]; intros pre chars skip f m E L M; [easy|].
  assert (Lc : List.length chars = (List.length pre + S (List.length t))%nat) by (subst; now rewrite app_length).
  cbn [rebuild unescape_from].
  assert (NM : forall x, In x m -> x <> List.length pre).
  { intros x I. rewrite Forall_forall in M. specialize (M x I). lia. }
  assert (IH' : forall skip' f' m', (List.length chars <= f' + S (List.length pre) + skip')%nat ->
     Forall (fun x => (x < S (List.length pre))%nat) m' ->
     rebuild (mark_loop ds chars f' (S (List.length pre) + skip') m') (S (List.length pre)) t
       = unescape_from ds skip' (c :: rev pre) t).
  { intros skip' f' m' L' M'. specialize (IH (pre ++ [c]) chars skip' f' m').
    replace (List.length (pre ++ [c])) with (S (List.length pre)) in IH by (rewrite app_length; cbn; lia).
    rewrite rev_app_distr in IH. apply IH; auto. subst; rewrite <- app_assoc; reflexivity. }
  assert (MS : Forall (fun x => (x < S (List.length pre))%nat) m).
  { apply Forall_impl with (2 := M). lia. }
  destruct skip as [|k].
  - rewrite Nat.add_0_r in *. destruct f as [|f]; [lia|].
    cbn [mark_loop]. destruct (Nat.leb_spec (List.length chars) (List.length pre)); [lia|].
    assert (Nth : nth (List.length pre) chars 0 = c) by (subst; rewrite app_nth2, Nat.sub_diag by lia; reflexivity).
    rewrite Nth. destruct (c =? marker_esc) eqn:E7; cbn [negb].
    + destruct t as [|d t'].
      * destruct (Nat.leb_spec (List.length chars) (S (List.length pre))); [|cbn in Lc; lia].
        destruct (existsb (Nat.eqb (List.length pre)) m) eqn:X; [|easy].
        apply existsb_marks in X. now apply NM in X.
      * destruct (Nat.leb_spec (List.length chars) (S (List.length pre))); [cbn in Lc; lia|].
        assert (Nth2 : nth (S (List.length pre)) chars 0 = d).
        { subst. rewrite app_nth2 by lia. replace (S (List.length pre) - List.length pre)%nat with 1%nat by lia. reflexivity. }
        assert (Fst : rev (firstn (S (List.length pre)) chars) = c :: rev pre).
        { subst. replace (pre ++ c :: d :: t') with ((pre ++ [c]) ++ d :: t') by (now rewrite <- app_assoc).
          replace (S (List.length pre)) with (List.length (pre ++ [c]) + 0)%nat by (rewrite app_length; cbn; lia).
          rewrite firstn_app_2, firstn_O, app_nil_r, rev_app_distr. reflexivity. }
        assert (Skp : skipn (S (S (List.length pre))) chars = t').
        { subst. replace (pre ++ c :: d :: t') with ((pre ++ [c; d]) ++ t') by (now rewrite <- app_assoc).
          rewrite skipn_app. replace (S (S (List.length pre))) with (List.length (pre ++ [c; d])) by (rewrite app_length; cbn; lia).
          rewrite skipn_all, Nat.sub_diag. reflexivity. }
        rewrite Nth2, Fst, Skp. destruct (first_skip ds (c :: rev pre) d t') as [n|] eqn:F.
        -- assert (X : existsb (Nat.eqb (List.length pre)) (mark_loop ds chars f (List.length pre + n) (List.length pre :: m)) = true).
           { apply existsb_marks. rewrite mark_loop_acc. apply in_app_iff. right. now left. }
           rewrite X. f_equal. apply P in F.
           replace (List.length pre + n)%nat with (S (List.length pre) + pred n)%nat by lia.
           apply IH'; [lia|]. constructor; [lia|easy].
        -- assert (X : existsb (Nat.eqb (List.length pre)) (mark_loop ds chars f (S (List.length pre)) m) = false).
           { apply not_true_is_false. rewrite existsb_marks. rewrite mark_loop_acc, in_app_iff. intros [I|I].
             - apply (mark_loop_ge _ _ _ P) in I. lia.
             - now apply NM in I. }
           rewrite X. replace (S (List.length pre)) with (S (List.length pre) + 0)%nat at 1 by lia.
           apply IH'; [lia|easy].
    + f_equal. replace (S (List.length pre)) with (S (List.length pre) + 0)%nat at 1 by lia.
      apply IH'; [lia|easy].
  - assert (X : existsb (Nat.eqb (List.length pre)) (mark_loop ds chars f (List.length pre + S k) m) = false).
    { apply not_true_is_false. rewrite existsb_marks. rewrite mark_loop_acc, in_app_iff. intros [I|I].
      - apply (mark_loop_ge _ _ _ P) in I. lia.
      - now apply NM in I. }
    rewrite X. replace (List.length pre + S k)%nat with (S (List.length pre) + k)%nat by lia.
    destruct (c =? marker_esc); cbn [negb pred]; [|f_equal]; apply IH'; auto; lia.
Qed.
Lemma unescape_go_eq ds s : (forall rb c af n, first_skip ds rb c af = Some n -> (1 <= n)%nat) ->
  unescape_go ds s = unescape_content ds s.
Proof.
  intros P. unfold unescape_go, unescape_content.
  apply (unescape_go_loop ds P s [] s O (S (List.length s)) []); [easy|cbn; lia|constructor].
Qed.

(** ** Plain text *)
Definition no_raw (esc : N -> bool) (D : list kbyte) : Prop :=
  forall c, In (c, Raw) D -> c < 128 -> c <> 0 -> esc c = false.

Definition good (esc : N -> bool) (X : bytes) : Prop :=
  (forall D, explains X D -> no_raw esc D) /\ (forall D, explains (7 :: X) D -> no_raw esc D).
Lemma good_lit esc X c : good esc X -> forall D, explains (7 :: c :: X) D -> no_raw esc D.
Proof.
  intros [Q Q7] D H. inversion H as [|? ? ? N|? ? D' N E|? ? D' N E| |? D' E]; subst; try easy.
  - intros x [I|I]; [discriminate|]. exact (Q _ E x I).
  - intros x [I|[I|I]]; [discriminate|discriminate|]. exact (Q _ E x I).
  - now apply Q7.
Qed.
Lemma good_raw esc X c : good esc X -> (c < 128 -> c <> 0 -> esc c = false) -> good esc (c :: X).
Proof.
  intros G HC. split; [|now apply good_lit]. intros D H. destruct (N.eq_dec c 7) as [->|Hc].
  - now apply G.
  - inversion H as [|? ? D' N E|? ? D' N E|? ? D' N E| |? D' E]; subst; try easy.
    intros x [I|I]; [inversion I; now subst|]. destruct G as [Q _]. exact (Q _ E x I).
Qed.
Lemma good_mark esc X c : good esc X -> good esc (7 :: c :: X).
Proof.
  intros G. split; [now apply good_lit|]. intros D H.
  inversion H as [|? ? ? N|? ? D' N E|? ? D' N E| |? D' E]; subst; try easy. exact (good_lit esc X c G D E).
Qed.
Lemma decode_rune_ascii c t : c < 128 -> fst (decode_rune (c :: t)) = c.
Proof. intros H. unfold decode_rune. destruct (c <? 128) eqn:E; [easy|lia]. Qed.
Lemma escape_good esc t : good esc (escape_content esc t).
Proof.
  induction t as [|c t IH].
  - split; intros D H; inversion H; subst; try easy. 
  - cbn [escape_content]. destruct (c =? cNUL) eqn:E0.
    + unfold rune_error_bytes. cbn [app]. repeat (apply good_raw; [|lia]). exact IH.
    + destruct (esc (fst (decode_rune (c :: t)))) eqn:E.
      * unfold marker_esc. now apply good_mark.
      * apply good_raw; [exact IH|]. intros L _. now rewrite decode_rune_ascii in E.
Qed.
Lemma escape_no_raw esc t D : explains (escape_content esc t) D -> no_raw esc D.
Proof. apply escape_good. Qed.
Lemma escape_no_nul esc t : ~ In 0 (escape_content esc t).
Proof.
  induction t as [|c t IH]; [easy|]. cbn [escape_content].
  destruct (c =? cNUL) eqn:E0; [|destruct (esc _)].
  - unfold rune_error_bytes. cbn [app In]. intuition discriminate.
  - unfold marker_esc, cNUL in *. cbn [In]. intros [H|[H|H]]; [discriminate|lia|easy].
  - unfold cNUL in *. intros [H|H]; [lia|easy].
Qed.
Lemma escape_strip esc t : strip (escape_content esc t) = plain t.
Proof.
  induction t as [|c t IH]; [easy|]. cbn [escape_content plain flat_map]. fold (plain t).
  unfold cNUL, marker_esc. destruct (c =? 0) eqn:E0.
  - rewrite strip_app, IH. reflexivity.
  - assert (H : strip (c :: escape_content esc t) = (if c =? 7 then [] else [c]) ++ plain t).
    { unfold strip in *. cbn [filter]. rewrite IH. now destruct (c =? 7). }
    destruct (esc _); [|exact H]. rewrite <- H. unfold strip. cbn [filter]. reflexivity.
Qed.
