(** The text of a list (C64). *)
From Coq Require Import List NArith ZArith Bool String Lia ZifyBool ZifyNat ZifyN.
From Verif Require Import Bytes BytesFacts TextUtils TextFacts TextFacts2 RenderText RenderFacts RenderFacts2 RenderFacts3 RenderFacts4 RenderFacts5 Escape SpecEscape
  EscapeFacts EscapeFacts4 EscapeFacts6 SpecText SpecText2 Dom Engine CommonMark SpecPipeline SpecNode NodeFacts
  SpecPlain PlainFacts2 SpecBlocks BlockFacts0 BlockFacts2 BlockFacts3 BlockFacts5 BlockFacts6.
Import ListNotations.
Open Scope N_scope.
Open Scope list_scope.

(** ** Lines of code in an item *)
Definition rep (k : nat) (l : bytes) : bytes := replace_all marker_nl (marker_nl ++ repeat 32 k) l.
Lemma replace_in old new c s : In c (replace_all old new s) -> In c s \/ In c new.
Proof.
  remember (List.length s) as n eqn:L. revert s L. induction n as [n IH] using Wf_nat.lt_wf_ind. intros s L. destruct s as [|d t]; [now left|]. rewrite replace_all_cons.
  destruct (has_prefix old (d :: t)).
  - rewrite in_app_iff. intros [I|I]; auto. apply (IH (List.length (skipn (Init.Nat.pred (List.length old)) t))) in I; [|rewrite skipn_length; cbn in L; lia|auto].
    destruct I as [I|I]; auto. left. right. rewrite <- (firstn_skipn (Init.Nat.pred (List.length old)) t). apply in_app_iff. auto.
  - intros [->|I]; [left; now left|]. apply (IH (List.length t)) in I; [destruct I; auto; left; now right|cbn in L; lia|auto].
Qed.
Lemma rep_in k c l : In c (rep k l) -> In c l \/ c = 32 \/ 128 <= c.
Proof.
  intros I. apply replace_in in I as [I|I]; auto. right. apply in_app_iff in I as [I|I]; [|apply repeat_spec in I; auto]. right. vm_compute in I. lia.
Qed.
Lemma rep_clean k l : clean l -> rep k l = l.
Proof. intros C. unfold rep. now apply PlainFacts2.replace_none. Qed.
Lemma rep_spaces k l : spaces_line (rep k l) = true -> spaces_line l = true.
Proof.
  unfold rep. induction l as [|c t IH]; auto. rewrite replace_all_cons. destruct (has_prefix marker_nl (c :: t)); [discriminate|]. unfold spaces_line in *. cbn [forallb]. rewrite !andb_true_iff. intuition.
Qed.
Lemma indent_split p c k : ~ In 10 p -> split_on 10 (p ++ indent_item c k) = match split_on 10 c with h :: t => (p ++ rep k h) :: map (fun l => repeat 32 k ++ rep k l) t | [] => [] end.
Proof.
  intros Np. unfold indent_item. cbv zeta. unfold cNL, cSP. pose proof (split_lines c) as F. pose proof (split_on_ne 10 c) as Ne. destruct (split_on 10 c) as [|h t]; [easy|]. clear Ne. cbn [map].
  change (replace_all marker_nl (marker_nl ++ repeat 32 k)) with (rep k).
  assert (J : forall (x : bytes) ls, join (10 :: repeat 32 k) (x :: ls) = join [10] (x :: map (app (repeat 32 k)) ls)).
  { intros x ls. revert x. induction ls as [|y ls IH]; intros x; auto. change (join (10 :: repeat 32 k) (x :: y :: ls)) with (x ++ (10 :: repeat 32 k) ++ join (10 :: repeat 32 k) (y :: ls)). rewrite IH. cbn [map].
    change (join [10] (x :: (repeat 32 k ++ y) :: map (app (repeat 32 k)) ls)) with (x ++ 10 :: join [10] ((repeat 32 k ++ y) :: map (app (repeat 32 k)) ls)). f_equal. cbn [app]. f_equal.
    destruct ls; [reflexivity|]. cbn [map]. change (join [10] (?a :: ?q :: ?r)) with (a ++ [10] ++ join [10] (q :: r)). now rewrite <- app_assoc. }
  rewrite J. assert (P : p ++ join [10] (rep k h :: map (app (repeat 32 k)) (map (rep k) t)) = join [10] ((p ++ rep k h) :: map (fun l => repeat 32 k ++ rep k l) t)).
  { rewrite map_map. destruct t as [|y t]; [reflexivity|]. cbn [map]. change (join [10] (?a :: ?q :: ?r)) with (a ++ [10] ++ join [10] (q :: r)). now rewrite <- app_assoc. }
  rewrite P. assert (Nr : forall l, ~ In 10 l -> ~ In 10 (rep k l)) by (intros l Nl I; apply rep_in in I as [I|I]; auto; lia). rewrite Forall_forall in F.
  apply join_split; [discriminate|]. intros l [<-|I].
  - rewrite in_app_iff. intros [J2|J2]; auto. revert J2. apply Nr, F. now left.
  - apply in_map_iff in I as (y & <- & I). rewrite in_app_iff. intros [J2|J2]; [apply repeat_spec in J2; discriminate|]. revert J2. apply Nr, F. now right.
Qed.
Lemma neat_map (g f : bytes -> bytes) : (forall m, spaces_line (f m) = true -> spaces_line m = true) -> (forall m, solid m -> solid (f m)) -> (forall m, solid m -> solid (g m)) ->
  forall h t, neat (h :: t) -> neat (g h :: map f t).
Proof.
  intros F1 F2 F3 h t. revert g F3 h. induction t as [|m t IH]; intros g F3 h N; [constructor|]. cbn [map]. inversion N as [|? ? ? S N']; subst. constructor; auto.
Qed.
Lemma last_map (g f : bytes -> bytes) (P : bytes -> Prop) : (forall m, P m -> P (f m)) -> (forall m, P m -> P (g m)) -> forall h t, P (last (h :: t) []) -> P (last (g h :: map f t) []).
Proof.
  intros F1 F2 h t. destruct t as [|m t _] using rev_ind; [exact (F2 h)|]. rewrite map_app. cbn [map]. rewrite !app_comm_cons, !last_last. apply F1.
Qed.
Lemma solid_after p k m : (forall c, In c p -> c < 128) -> solid m -> solid (p ++ rep k m).
Proof. intros A ((u & c & E & C) & M). rewrite rep_clean by auto. split; [exists (p ++ u), c; rewrite E, app_assoc; auto|]. now apply ascii_before. Qed.
Lemma closed_after p k m : (exists u, p = u ++ [32]) \/ p = [] -> (forall c, In c p -> c < 128) -> closed m -> closed (p ++ rep k m).
Proof.
  intros P A (N & H & M). rewrite rep_clean by auto. split; [destruct p, m; try discriminate; easy|]. split; [|now apply ascii_before].
  destruct P as [(u & ->)| ->]; auto. rewrite <- app_assoc. cbn [app]. now apply decode_last_ascii.
Qed.
Lemma spaces_after p m : spaces_line (p ++ m) = true -> spaces_line m = true.
Proof. unfold spaces_line. rewrite forallb_app, andb_true_iff. tauto. Qed.
Lemma prefix_end d num p : prefix_ok d num p -> exists u, p = u ++ [32].
Proof. unfold prefix_ok. destruct num as [n|]; [intros (_ & ds & -> & _)|intros (-> & _)]; [exists (ds ++ [46]); now rewrite <- app_assoc|now exists [d]]. Qed.
Lemma prefix_start d num p : prefix_ok d num p -> exists c u, p = c :: u /\ 33 <= c < 128.
Proof.
  unfold prefix_ok. destruct num as [n|].
  - intros (_ & ds & -> & _ & Ln & F). destruct ds as [|c ds]; [cbn in Ln; lia|]. exists c, (ds ++ [46; 32]). split; auto. cbn [forallb] in F. apply andb_true_iff in F as [F _]. unfold is_digit, in_range in F. lia.
  - intros (-> & D). exists d, [32]. split; auto. lia.
Qed.

Section lists.
Context {TT : Type}.
Notation block := (gblock TT).
Variable decode : bytes -> TT.
Notation good := (BlockFacts3.good decode).
Notation goods := (BlockFacts3.goods decode).
Notation good_items := (BlockFacts3.good_items decode).
Variable hr : bytes.
(** The text of an item *)
Definition item_ok (c : bytes) (B : list block) : Prop :=
  exists fs, post_newline c = join [10; 10] fs /\ goods hr false fs B /\ fs <> [] /\ neat (split_on 10 c) /\ closed (last (split_on 10 c) []) /\ ~ In 7 c.
Lemma item_raw d num p c B k : prefix_ok d num p -> item_ok c B -> let ls := split_on 10 (p ++ indent_item c k) in
  neat ls /\ spaces_line (hd [] ls) = false /\ closed (last ls []).
Proof.
  intros P (fs & _ & _ & _ & Nt & Cl & _). cbv zeta. assert (N10 : ~ In 10 p) by (intros J; apply (prefix_ascii _ _ _ P) in J; lia). rewrite indent_split by auto.
  assert (A : forall y, In y p -> y < 128) by (intros y J; apply (prefix_ascii _ _ _ P) in J; lia). assert (A2 : forall y, In y (repeat 32 k) -> y < 128) by (intros y J; apply repeat_spec in J; lia).
  assert (E2 : (exists u, repeat 32 k = u ++ [32]) \/ repeat 32 k = []) by (destruct k; [now right|left; exists (repeat 32 k); exact (repeat_end 32 (S k) ltac:(lia)) || (rewrite repeat_end by lia; repeat f_equal; cbn; lia)]).
  pose proof (split_on_ne 10 c) as Ne. destruct (split_on 10 c) as [|h t]; [easy|]. cbn [hd]. split; [|split].
  - apply (neat_map (fun m => p ++ rep k m) (fun m => repeat 32 k ++ rep k m)); auto using solid_after. intros m S. eapply rep_spaces, spaces_after. exact S.
  - destruct (prefix_start _ _ _ P) as (e & u & -> & E). unfold spaces_line. cbn [app forallb]. now replace (32 =? e) with false by lia.
  - apply (last_map (fun m => p ++ rep k m) (fun m => repeat 32 k ++ rep k m)); auto using closed_after. intros m Cm. apply closed_after; auto. left. eapply prefix_end; eauto.
Qed.
Lemma indent_in c k x : In x (indent_item c k) -> In x c \/ x = 10 \/ x = 32 \/ 128 <= x.
Proof.
  intros I. change (indent_item c k) with ([] ++ indent_item c k) in I. rewrite <- (split_join 10 ([] ++ indent_item c k)) in I. rewrite indent_split in I by easy.
  assert (G : forall ls, In x (join [10] ls) -> x = 10 \/ exists l, In l ls /\ In x l).
  { induction ls as [|y ls IH]; [easy|]. destruct ls as [|z ls]; [cbn; rewrite ?app_nil_r; eauto|]. change (join [10] (y :: z :: ls)) with (y ++ 10 :: join [10] (z :: ls)). rewrite in_app_iff. cbn [In].
    intros [J|[J|J]]; [right; exists y; split; [now left|auto]|auto|]. destruct (IH J) as [J2|(q & J2 & J3)]; auto. right. exists q. split; [now right|auto]. }
  apply G in I as [->|(m & Im & I)]; auto. 
  assert (Sp : forall y, In y (split_on 10 c) -> In x y -> In x c) by (intros y Iy Ix; destruct (split_infix _ _ _ Iy) as (u & v & ->); rewrite !in_app_iff; auto).
  destruct (split_on 10 c) as [|h t] eqn:E; [destruct Im|]. destruct Im as [<-|Im].
  - cbn [app] in I. apply rep_in in I as [I|I]; auto. left. apply (Sp h); auto. now left.
  - apply in_map_iff in Im as (y & <- & Iy). apply in_app_iff in I as [I|I]; [apply repeat_spec in I; auto|]. apply rep_in in I as [I|I]; auto. left. apply (Sp y); auto. now right.
Qed.
Variables (un : bytes -> bytes) (prefix : nat -> bytes) (num : nat -> option N) (d : N) (k : nat).
Notation ct it := (un (trim_hard_breaks (trim_consecutive_newlines it))).
Hypothesis Hsame : forall i j, same_kind (num i) (num j).
Lemma items_raw items Bs : Forall2 (fun it B => item_ok (ct it) B) items Bs -> items <> [] -> forall i, (forall j, (i <= j < i + List.length items)%nat -> prefix_ok d (num j) (prefix j)) ->
  let w := list_items un prefix k i items in
  neat (split_on 10 w) /\ spaces_line (hd [] (split_on 10 w)) = false /\ closed (last (split_on 10 w) []) /\ ~ In 7 w /\ exists c u, w = c :: u /\ 33 <= c < 128.
Proof.
  induction 1 as [|it B items Bs H F IH]; [easy|]. intros _ i P. cbv zeta. cbn [list_items]. cbn [List.length] in P. assert (Pi := P i ltac:(lia)). destruct (item_raw d (num i) (prefix i) _ _ k Pi H) as (R1 & R2 & R3).
  destruct (prefix_start _ _ _ Pi) as (e & u & Ep & Ee). pose proof H as (_ & _ & _ & _ & _ & _ & N7).
  assert (N7' : ~ In 7 (prefix i ++ indent_item (ct it) k)). { rewrite in_app_iff. intros [J|J]; [apply (prefix_ascii _ _ _ Pi) in J; lia|]. apply indent_in in J as [J|J]; [now apply N7|lia]. }
  destruct items as [|it2 items].
  - cbn [is_empty list_items app]. rewrite !app_nil_r. split; [exact R1|split; [exact R2|split; [exact R3|split; [exact N7'|]]]]. rewrite Ep. eexists _, _. split; [reflexivity|auto].
  - destruct (IH ltac:(discriminate) (S i)) as (I1 & I2 & I3 & I4 & _); [intros j Hj; apply P; cbn [List.length] in *; lia|]. cbn [is_empty]. unfold cNL. cbn [app]. rewrite app_assoc.
    set (x := prefix i ++ indent_item (ct it) k) in *. set (y := list_items un prefix k (S i) (it2 :: items)) in *. rewrite split_nl. split; [|split; [|split; [|split]]].
    + apply neat_app; auto. congruence.
    + pose proof (split_on_ne 10 x) as Ne. destruct (split_on 10 x); [easy|]. exact R2.
    + pose proof (split_on_ne 10 y) as Ne. clear - I3 Ne. destruct (split_on 10 y) as [|z q _] using rev_ind; [easy|]. rewrite app_assoc, last_last. now rewrite last_last in I3.
    + rewrite in_app_iff. intros [J|[J|J]]; auto. discriminate.
    + unfold x. rewrite Ep. eexists _, _. split; [reflexivity|auto].
Qed.
Lemma items_good items Bs : Forall2 (fun it B => item_ok (ct it) B) items Bs -> items <> [] -> forall i, (forall j, (i <= j < i + List.length items)%nat -> prefix_ok d (num j) (prefix j)) ->
  (forall B fs h t j, In B Bs -> goods hr false fs B -> fs <> [] -> split_on 10 (join [10; 10] fs) = h :: t -> nb (num j) d h) ->
  good_items hr d (num i) (items_lines prefix i (map (fun it => split_on 10 (post_newline (ct it))) items)) Bs.
Proof.
  induction 1 as [|it B items Bs H F IH]; [easy|]. intros _ i P Nb. cbn [map items_lines]. pose proof H as (fs & E & G & Nf & _). rewrite E. destruct (split_on 10 (join [10; 10] fs)) as [|h t] eqn:Es; [now apply split_on_ne in Es|].
  cbn [item_lines]. assert (Pi : prefix_ok d (num i) (prefix i)) by (apply P; cbn [List.length]; lia). assert (Ni : nb (num i) d h) by (eapply Nb; eauto; now left).
  destruct items as [|it2 items].
  - inversion F; subst. cbn [map items_lines]. rewrite app_nil_r. eapply gi_one; eauto.
  - eapply (gi_cons decode hr d (num i) (prefix i) fs B h t (num (S i))); eauto. apply IH; [discriminate| |].
    + intros j Hj. apply P. cbn [List.length] in *. lia.
    + intros B' fs' h' t' j I. eapply Nb; eauto. now right.
Qed.
Lemma list_seg (para atx : bytes -> TT -> Prop) items Bs : Forall2 (fun it B => item_ok (ct it) B) items Bs -> items <> [] -> (forall j, (j < List.length items)%nat -> prefix_ok d (num j) (prefix j) /\ List.length (prefix j) = k) ->
  (forall B fs h t j, In B Bs -> goods hr false fs B -> fs <> [] -> split_on 10 (join [10; 10] fs) = h :: t -> nb (num j) d h) ->
  seg decode para atx hr (list_items un prefix k 0 items) [Items (num O) Bs].
Proof.
  intros F N P Nb. destruct (items_raw items Bs F N O) as (I1 & I2 & I3 & I4 & c & u & Ew & C); [intros j Hj; apply P; lia|]. apply seg_list; auto.
  - split; [rewrite Ew; discriminate|]. split; auto. rewrite Ew. now apply first_ascii.
  - rewrite <- (split_join 10 (post_newline (list_items un prefix k 0 items))). eapply good_list. rewrite list_items_lines; auto.
    + apply items_good; auto. intros j Hj. apply P. lia.
    + intros j Hj. destruct (P j ltac:(lia)) as [Pj Lj]. split; [|split]; auto.
      * apply Forall_forall. intros y J. apply (prefix_ascii _ _ _ Pj) in J. lia.
      * intros J. apply (prefix_ascii _ _ _ Pj) in J. lia.
Qed.
End lists.

(** ** Items that start like a thematic break *)
Section bullets.
Context {TT : Type}.
Notation block := (gblock TT).
Variable decode : bytes -> TT.
Notation plain_line := (BlockFacts3.plain_line decode).
Notation goods := (BlockFacts3.goods decode).
Variable two : N -> TT -> bool.
Hypothesis Htwo : forall d, d = 45 \/ d = 42 -> two d (decode [d; d]) = true.
Lemma dashes d o v : d = 45 \/ d = 42 -> plain_line o v -> two d v = false -> exists x, In x o /\ x <> d /\ x <> 32 /\ x <> 9.
Proof.
  intros D (N10 & (c & t & Eo & C1 & C2) & (t2 & c2 & Eo2 & D1 & D2) & R & _ & N9 & Q1 & _ & _ & Q4) V.
  destruct (existsb (fun x => negb ((x =? d) || (x =? 32) || (x =? 9))) o) eqn:E.
  - apply existsb_exists in E as (x & I & X). exists x. split; auto. lia.
  - exfalso. assert (A : forall x, In x o -> x = d \/ x = 32).
    { intros x I. assert (X : (x =? d) || (x =? 32) || (x =? 9) = true). { destruct ((x =? d) || (x =? 32) || (x =? 9)) eqn:X; auto. assert (existsb (fun x => negb ((x =? d) || (x =? 32) || (x =? 9))) o = true); [|congruence]. apply existsb_exists. exists x. split; auto. now rewrite X. }
      assert (x <> 9) by (intros ->; contradiction). lia. }
    clear E. assert (c = d) by (destruct (A c) as [->|]; [rewrite Eo; now left|auto|contradiction]). subst c.
    unfold unread in Q4. rewrite !orb_false_iff in Q4. destruct Q4 as [[[[_ Q4] _] _] _]. rewrite Eo in Q4. cbn [bullet_item] in Q4. replace ((d =? 45) || (d =? 43) || (d =? 42)) with true in Q4 by lia. cbn [andb] in Q4.
    destruct t as [|c t]; [discriminate|]. assert (c = d). { destruct (A c) as [->|X]; [rewrite Eo; right; now left|auto|]. subst c. discriminate. } subst c. clear Q4.
    destruct t as [|c t]; [rewrite <- R, Eo, Htwo in V by auto; discriminate|].
    assert (Br : forall n s, (forall x, In x s -> x = d \/ x = 32) -> In d s -> (2 <= n)%nat -> break_rest d n s = true).
    { clear. assert (G : forall s n, (3 <= n)%nat -> (forall x, In x s -> x = d \/ x = 32) -> break_rest d n s = true).
      { induction s as [|x s IH]; intros n L A; [now apply Nat.leb_le|]. cbn [break_rest]. destruct (x =? d) eqn:X; [apply IH; [lia|intros; apply A; now right]|]. destruct (A x (or_introl eq_refl)); [lia|]. replace (x =? 32) with true by lia. apply IH; auto. intros; apply A; now right. }
      intros n s. revert n. induction s as [|x s IH]; intros n A I L; [contradiction|]. cbn [break_rest]. destruct (x =? d) eqn:X; [apply G; [lia|intros; apply A; now right]|].
      destruct I as [->|I]; [lia|]. destruct (A x (or_introl eq_refl)); [lia|]. replace (x =? 32) with true by lia. apply IH; auto. intros; apply A; now right. }
    rewrite Eo in Q1. cbn [thematic_break] in Q1. replace ((d =? 45) || (d =? 95) || (d =? 42)) with true in Q1 by lia. cbn [andb break_rest] in Q1. rewrite N.eqb_refl in Q1.
    fold (break_rest d 2 (c :: t)) in Q1. change (break_rest d 2 (c :: t) = false) in Q1. rewrite Br in Q1; [discriminate| | |lia].
    + intros x I. apply A. rewrite Eo. right. now right.
    + destruct t2 as [|y1 [|y2 t2]]; rewrite Eo in Eo2; cbn [app] in Eo2; try discriminate. injection Eo2 as _ _ Eo2. rewrite Eo2, in_app_iff. right. left. destruct (A c2); auto; [|contradiction]. rewrite Eo, Eo2. right. right. rewrite in_app_iff. right. now left.
Qed.
Lemma nb_first hr d fs B h t : d = 45 \/ d = 43 \/ d = 42 -> after_bullet two d hr B = true -> goods hr false fs B -> fs <> [] -> split_on 10 (join [10; 10] fs) = h :: t -> nb None d h.
Proof.
  intros D Ab G N E. destruct (N.eq_dec d 43) as [->|D43]; [right; now left|]. assert (D' : d = 45 \/ d = 42) by lia. unfold after_bullet in Ab. replace (d =? 43) with false in Ab by lia. cbn [orb] in Ab.
  right. right. inversion G as [|? o bs os B' Go H1 H2 _]; subst; [easy|]. clear G N H2.
  assert (Fl : exists r, split_on 10 o = h :: r).
  { destruct os as [|o2 os]; [cbn in E; rewrite ?app_nil_r in E; eauto|]. change (join [10; 10] (o :: o2 :: os)) with (o ++ 10 :: [] ++ 10 :: join [10; 10] (o2 :: os)) in E. rewrite split_nl in E.
    pose proof (split_on_ne 10 o) as Ne. destruct (split_on 10 o) as [|y q]; [easy|]. cbn [app] in E. injection E as -> _. eauto. }
  destruct Fl as (r & Fl). clear E. assert (Ch : forall c u, o = c :: u -> c <> 10 -> c <> d -> c <> 32 -> c <> 9 -> exists x, In x h /\ x <> d /\ x <> 32 /\ x <> 9).
  { intros c u -> N1 N2 N3 N4. cbn [split_on] in Fl. replace (c =? 10) with false in Fl by lia. exists c. split; auto. destruct (split_on 10 u); injection Fl as <- _; now left. }
  destruct Go as [o v P|k o v K P|k n o v K L P|R|f i c F I M| |d' num ls Bs Gi].
  - pose proof P as (N10 & _). rewrite single_line in Fl by auto. injection Fl as <- _. apply (dashes d o v); auto. cbn [app] in Ab. now apply negb_true_iff in Ab.
  - destruct k; [lia|]. cbn [repeat app] in Ch. eapply Ch; [reflexivity|lia..].
  - pose proof P as (N10 & _). rewrite split_nl, (single_line o) in Fl by auto. cbn [app] in Fl. injection Fl as <- _. apply (dashes d o v); auto. cbn [app] in Ab. now apply negb_true_iff in Ab.
  - destruct (rule_chars hr R) as (A & (c & u & Eh & C) & _). specialize (A c). rewrite Eh in A. specialize (A (or_introl eq_refl)). cbn [app] in Ab. rewrite Eh in Ab. cbn [first_is] in Ab. apply (Ch c u); auto; lia.
  - destruct (fence_of f c F) as (n & E & L). rewrite E in Ch. destruct n; [lia|]. cbn [repeat app] in Ch. eapply Ch; [reflexivity|destruct F; lia..].
  - discriminate (H1 eq_refl).
  - assert (Q : exists p h' lr, ls = (p ++ h') :: lr /\ prefix_ok d' num p /\ nb num d' h' /\ ~ In 10 h').
    { destruct Gi as [d' num p fs B h' t' P _ _ Es Nb|d' num p fs B h' t' num2 ls Bs P _ _ Es Nb _ _]; exists p, h'; eexists; (split; [reflexivity|]); (split; [auto|split; [auto|]]);
        pose proof (split_lines (join [10; 10] fs)) as FF; rewrite Es in FF; now inversion FF. }
    destruct Q as (p & h' & lr & -> & P & Nb & N10).
    assert (Np : ~ In 10 (p ++ h')) by (rewrite in_app_iff; intros [J|J]; auto; apply (prefix_ascii _ _ _ P) in J; lia).
    assert (Eh : h = p ++ h').
    { destruct lr as [|y lr]; [cbn in Fl; rewrite ?app_nil_r in Fl; rewrite single_line in Fl by auto; now injection Fl as <- _|]. change (join [10] ((p ++ h') :: y :: lr)) with ((p ++ h') ++ 10 :: join [10] (y :: lr)) in Fl.
      rewrite split_nl, single_line in Fl by auto. cbn [app] in Fl. now injection Fl as <- _. }
    subst h. destruct num as [n|].
    + destruct P as (_ & ds & -> & _ & Ln & Fd). destruct ds as [|c ds]; [cbn in Ln; lia|]. cbn [forallb] in Fd. apply andb_true_iff in Fd as [Fd _]. unfold is_digit, in_range in Fd. exists c. split; [now left|lia].
    + destruct P as (-> & Dd). destruct (N.eq_dec d' d) as [->|Nd]; [|exists d'; split; [now left|lia]]. destruct Nb as [Nb|[Nb|(x & I & X)]]; [congruence|congruence|]. exists x. split; auto. right. now right.
Qed.
End bullets.
