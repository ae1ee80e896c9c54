(** Lemmas about headings and options. *)
From Coq Require Import List NArith ZArith Bool Lia ZifyBool ZifyNat ZifyN.
From Verif Require Import Bytes TextUtils RenderText BytesFacts SpecText TextFacts TextFacts2 RenderFacts RenderFacts2 RenderFacts3.
Import ListNotations.
Open Scope N_scope.
Open Scope list_scope.

(** ** ATX headings (C32) *)
Definition one_line (c : N) : N := if (c =? 10) || (c =? 13) then 32 else c.
Lemma one_line_map : blank_map one_line.
Proof. intros c. unfold one_line. destruct ((c =? 10) || (c =? 13)) eqn:E; [right; lia|now left]. Qed.
Lemma atx_content_eq s : atx_content s = escape_pound (trim_space (squeeze_spaces false (map one_line s))).
Proof.
  unfold atx_content. cbv zeta. rewrite !replace_one_map, map_map. do 3 f_equal. apply map_ext. intros c.
  unfold one_line, cNL, cCR, cSP. destruct (c =? 10) eqn:E; cbn; reflexivity.
Qed.
(** Whether a text is blank does not depend on how many spaces it has. *)
Lemma spaces_cons32 s : spaces s -> spaces (32 :: s).
Proof. intros H. apply (spaces_cons [32] 32 s); [reflexivity|reflexivity|exact H]. Qed.
Lemma squeeze_false_prefix t : forall u v, squeeze_spaces false t = u ++ v -> Forall (fun x => 128 <= x) u ->
  exists t', t = u ++ t' /\ v = squeeze_spaces false t'.
Proof.
  induction t as [|c t IH]; intros u v E F.
  - destruct u; [|discriminate]. exists []. cbn in *. auto.
  - destruct u as [|d u]; [exists (c :: t); cbn [app] in *; auto|]. inversion F as [|? ? Hd F']; subst.
    cbn [squeeze_spaces] in E. destruct (c =? cSP) eqn:Ec.
    + cbn [app] in E. injection E as <- _. apply N.eqb_eq in Ec. unfold cSP in Ec. lia.
    + cbn [app] in E. injection E as <- E. destruct (IH _ _ E F') as (t' & -> & ->). now exists t'.
Qed.
Lemma spaces_squeeze s : forall p, spaces (squeeze_spaces p s) -> spaces s.
Proof.
  remember (List.length s) as n eqn:L. revert s L. induction n as [n IH] using lt_wf_ind. intros s L p H.
  destruct s as [|c t]; [constructor|]. cbn [squeeze_spaces] in H. destruct (c =? cSP) eqn:E.
  - apply N.eqb_eq in E. subst c. apply spaces_cons32. destruct p.
    + apply (IH (List.length t)) with (p := true); [subst n; cbn; lia|easy|easy].
    + apply (IH (List.length t)) with (p := true); [subst n; cbn; lia|easy|].
      remember (cSP :: squeeze_spaces true t) as z eqn:Ez. destruct H as [|e r s' D R S]; [discriminate|].
      destruct e as [|d e]; [cbn in D; injection D as <-; discriminate|]. injection Ez as -> Ez.
      pose proof (decode_rune_spec cSP e) as Sp. rewrite D in Sp. destruct Sp as [(_ & _ & Le)|(G & _)]; [|unfold cSP in G; lia].
      destruct e; [|discriminate]. cbn [app] in Ez. now subst s'.
  - remember (c :: squeeze_spaces false t) as z eqn:Ez. destruct H as [|e r s' D R S]; [discriminate|].
    destruct e as [|d e]; [cbn in D; injection D as <-; discriminate|]. injection Ez as -> Ez.
    assert (F : Forall (fun x => 128 <= x) e).
    { pose proof (decode_rune_spec c e) as Sp. rewrite D in Sp. destruct Sp as [(_ & _ & Le)|(_ & _ & _ & F)].
      - destruct e; [constructor|discriminate].
      - rewrite firstn_all in F. now inversion F. }
    destruct (squeeze_false_prefix t e s' (eq_sym Ez) F) as (t' & -> & ->).
    apply (spaces_cons (c :: e) r t'); auto.
    apply (IH (List.length t')) with (p := false); [|easy|easy]. subst n. cbn [List.length]. rewrite app_length. lia.
Qed.
Lemma atx_nonempty s : trim_space s <> [] -> trim_space (squeeze_spaces false (map one_line s)) <> [].
Proof.
  intros N E. apply trim_space_nil in E. apply spaces_squeeze in E. apply trim_space_nil in E.
  rewrite (trim_space_to_space _ one_line_map) in E. apply N. now destruct (trim_space s).
Qed.
Lemma trim_space_in c s : In c (trim_space s) -> In c s.
Proof. destruct (trim_space_infix s) as (l & r & E). rewrite E at 2. rewrite !in_app_iff. auto. Qed.
Lemma atx_in c s : In c (trim_space (squeeze_spaces false (map one_line s))) -> c <> 10 /\ c <> 13.
Proof.
  intros H. apply trim_space_in, squeeze_in in H. apply in_map_iff in H as (x & <- & _). unfold one_line.
  destruct ((x =? 10) || (x =? 13)) eqn:E; lia.
Qed.
(** Every '#' is marked. *)
Fixpoint marked (p : N) (s : bytes) : Prop := match s with [] => True | c :: t => (c = 35 -> p = 7) /\ marked c t end.
Lemma marked_hashes s : hashes_marked s -> marked 0 s.
Proof.
  intros H. assert (G : forall x, (forall u y, s = (x ++ u) ++ [35] ++ y -> exists x', x ++ u = x' ++ [7]) -> forall t, s = x ++ t -> marked (last x 0) t).
  { intros x Hx t. revert x Hx. induction t as [|c t IH]; intros x Hx E; cbn; [easy|]. split.
    - intros ->. destruct (Hx [] t) as [x' Ex]; [now rewrite app_nil_r|]. rewrite app_nil_r in Ex. subst x. now rewrite last_last.
    - specialize (IH (x ++ [c])). rewrite last_last in IH. apply IH; [|rewrite E, <- app_assoc; reflexivity].
      intros u y Ey. assert (E1 : (x ++ [c]) ++ u = x ++ c :: u) by now rewrite <- app_assoc. rewrite E1 in *. now apply (Hx (c :: u) y). }
  apply (G [] (fun u y => H u y) s eq_refl).
Qed.
Lemma marked_weaken p q s : (p = 7 -> q = 7) -> marked p s -> marked q s.
Proof. destruct s; cbn; tauto. Qed.
Lemma marked_map s : forall p, marked p s -> marked (one_line p) (map one_line s).
Proof.
  induction s as [|c s IH]; intros p H; [easy|]. destruct H as [H1 H2]. cbn [map marked]. split; [|now apply IH].
  unfold one_line in *. intros E. destruct ((c =? 10) || (c =? 13)) eqn:Ec; [discriminate|]. rewrite (H1 E). reflexivity.
Qed.
Lemma marked_squeeze s : forall p b, (b = true -> p = 32) -> marked p s -> marked p (squeeze_spaces b s).
Proof.
  induction s as [|c s IH]; intros p b0 B H; [easy|]. destruct H as [H1 H2]. cbn [squeeze_spaces]. unfold cSP.
  destruct (c =? 32) eqn:E; [apply N.eqb_eq in E; subst c; destruct b0|].
  - rewrite (B eq_refl). apply IH; auto.
  - cbn [marked]. split; [easy|]. apply IH; auto.
  - cbn [marked]. split; [easy|]. apply IH; auto. discriminate.
Qed.
Lemma marked_app x : forall p y, marked p (x ++ y) -> marked p x /\ marked (last x p) y.
Proof.
  induction x as [|c x IH]; intros p y H; [easy|]. cbn [app marked] in H. destruct H as [H1 H2]. apply IH in H2 as [H2 H3].
  split; [easy|]. destruct x as [|d x]; [exact H3|]. cbn [last] in *. destruct x; [exact H3|]. 
  assert (G : forall (l : list N) d1 d2, l <> [] -> last l d1 = last l d2).
  { clear. induction l as [|a l IH]; intros d1 d2 N; [easy|]. destruct l; [reflexivity|]. cbn [last] in *. now apply IH. }
  now rewrite (G _ p c).
Qed.
Lemma last_forall (P : N -> Prop) l d : Forall P l -> P d -> P (last l d).
Proof. induction 1 as [|x l H F IH]; intros D; [exact D|]. cbn [last]. destruct l; [easy|]. now apply IH. Qed.
Lemma marked_trim p s : p <> 7 -> marked p s -> marked 0 (trim_space s).
Proof.
  intros P H. destruct (trim_space_ws s) as (l & r & E & Fl & _). rewrite E in H. apply marked_app in H as [_ H].
  apply marked_app in H as [H _]. apply (marked_weaken (last l p)); [|exact H].
  intros E7. exfalso. assert (G : (fun x => x <> 7) (last l p)); [|now apply G].
  apply last_forall; [|easy]. eapply Forall_impl; [|exact Fl]. unfold ws_byte. intros; lia.
Qed.
Lemma marked_last z : marked 0 (z ++ [35]) -> exists z', z = z' ++ [7].
Proof.
  intros H. apply marked_app in H as [_ H]. cbn in H. destruct H as [H _]. specialize (H eq_refl).
  destruct z as [|c z _] using rev_ind; [discriminate|]. rewrite last_last in H. subst c. now exists z.
Qed.
Lemma escape_pound_spec t : t <> [] -> marked 0 t ->
  (escape_pound t = Some t /\ last_is 35 t = false) \/
  (exists z, t = z ++ [92; 7; 35] /\ escape_pound t = Some t) \/
  (exists z, t = z ++ [7; 35] /\ escape_pound t = Some (z ++ [92; 35])).
Proof.
  intros N M. destruct t as [|c t _] using rev_ind; [easy|]. unfold escape_pound. rewrite rev_app_distr. cbn [rev app escape_pound_rev].
  destruct (c =? 35) eqn:E; cbn [negb].
  - apply N.eqb_eq in E. subst c. apply marked_last in M as [z ->]. rewrite rev_app_distr. cbn [rev app].
    destruct z as [|d z _] using rev_ind.
    + right; right. exists []. easy.
    + rewrite rev_app_distr. cbn [rev app]. destruct (d =? 92) eqn:Ed.
      * apply N.eqb_eq in Ed. subst d. right; left. exists z. cbn [option_map rev]. rewrite rev_involutive, <- !app_assoc. easy.
      * right; right. exists (z ++ [d]). cbn [option_map rev]. rewrite rev_involutive, <- !app_assoc. easy.
  - left. cbn [option_map rev]. rewrite rev_involutive, last_is_snoc. easy.
Qed.
Lemma inked_app x y : inked (x ++ y) = inked x ++ inked y.
Proof. apply filter_app. Qed.
Lemma inked_squeeze s : forall b, inked (squeeze_spaces b s) = inked s.
Proof.
  induction s as [|c s IH]; intros b0; [reflexivity|]. cbn [squeeze_spaces]. destruct (c =? cSP) eqn:E.
  - apply N.eqb_eq in E. subst c. destruct b0; unfold inked in *; cbn [filter]; change (ink cSP) with false; cbn iota; apply IH.
  - unfold inked in *. cbn [filter]. now rewrite IH.
Qed.
Lemma inked_map s : inked (map one_line s) = inked s.
Proof.
  induction s as [|c s IH]; [reflexivity|]. unfold inked in *. cbn [map filter]. rewrite IH. unfold one_line.
  destruct ((c =? 10) || (c =? 13)) eqn:E; [|reflexivity]. change (ink 32) with false. cbn iota.
  assert (ink c = false) as -> by (unfold ink; lia). reflexivity.
Qed.
Lemma inked_ws l : Forall ws_byte l -> inked l = [].
Proof.
  induction 1 as [|c l H F IH]; [reflexivity|]. unfold inked in *. cbn [filter].
  assert (ink c = false) as -> by (unfold ink, ws_byte in *; lia). exact IH.
Qed.
Lemma inked_trim s : inked (trim_space s) = inked s.
Proof.
  destruct (trim_space_ws s) as (l & r & E & Fl & Fr). rewrite E at 2. rewrite !inked_app, (inked_ws l), (inked_ws r), app_nil_r by easy. reflexivity.
Qed.
Lemma app_run_last (x z : bytes) (c : N) k : x ++ repeat 35 (S k) = z ++ [c; 35] -> c <> 35 -> x = z ++ [c].
Proof.
  intros E C. destruct k as [|k].
  - cbn in E. change (z ++ [c; 35]) with (z ++ [c] ++ [35]) in E. rewrite app_assoc in E. apply app_inj_tail in E. now destruct E.
  - exfalso. rewrite <- (repeat_snoc 35 (S k)), <- (repeat_snoc 35 k) in E. change (z ++ [c; 35]) with (z ++ [c] ++ [35]) in E.
    rewrite !app_assoc in E. apply app_inj_tail in E as [E _]. apply app_inj_tail in E as [_ E]. congruence.
Qed.
Lemma no_closing z c : c <> 35 -> c <> 32 -> c <> 9 -> ~ has_closing_sequence (z ++ [c; 35]).
Proof.
  intros C1 C2 C3 (x & k & E & H). symmetry in E. apply app_run_last in E; [|easy]. subst x.
  destruct H as [H|(y & d & H & D)]; [destruct z; discriminate|]. apply app_inj_tail in H as [_ ->]. tauto.
Qed.
Lemma no_closing_last s : last_is 35 s = false -> ~ has_closing_sequence s.
Proof. intros L (x & k & E & _). subst s. rewrite <- repeat_snoc, app_assoc, last_is_snoc in L. discriminate. Qed.
Definition unmarked (s : bytes) : bytes := filter (fun c => negb (c =? 7)) s.
Lemma atx_heading level s : trim_space s <> [] -> hashes_marked s ->
  exists c, heading_text false level s = Some ([10; 10] ++ repeat 35 level ++ [32] ++ c ++ [10; 10]) /\
  c <> [] /\ ~ In 10 c /\ ~ In 13 c /\ ~ has_closing_sequence c /\
  (forall z, c = z ++ [35] -> exists z', z = z' ++ [92] \/ z = z' ++ [92; 7]) /\ inked c = inked s.
Proof.
  intros N M. unfold heading_text. destruct (trim_space s) eqn:T; [easy|]. cbn [is_empty andb]. rewrite atx_content_eq.
  assert (NT : trim_space (squeeze_spaces false (map one_line s)) <> []) by (apply atx_nonempty; now rewrite T).
  assert (In10 : forall c, In c (trim_space (squeeze_spaces false (map one_line s))) -> c <> 10 /\ c <> 13) by (intros c; apply atx_in).
  assert (Mk : marked 0 (trim_space (squeeze_spaces false (map one_line s)))).
  { apply (marked_trim 0); [easy|]. apply marked_squeeze; [easy|]. apply (marked_map s 0). now apply marked_hashes. }
  assert (Ik : inked (trim_space (squeeze_spaces false (map one_line s))) = inked s) by now rewrite inked_trim, inked_squeeze, inked_map.
  clear T. set (t := trim_space (squeeze_spaces false (map one_line s))) in *. clearbody t.
  destruct (escape_pound_spec t NT Mk) as [[-> L]|[(z & -> & ->)|(z & -> & ->)]]; cbn [option_map]; eexists; (split; [reflexivity|]).
  - split; [easy|]. split; [intros I; now apply In10 in I|]. split; [intros I; now apply In10 in I|]. split; [now apply no_closing_last|].
    split; [|easy]. intros z ->. rewrite last_is_snoc in L. discriminate.
  - split; [easy|]. split; [intros I; now apply In10 in I|]. split; [intros I; now apply In10 in I|]. split.
    + change (z ++ [92; 7; 35]) with (z ++ [92] ++ [7; 35]). rewrite app_assoc. now apply no_closing.
    + split; [|easy]. intros y E. change (z ++ [92; 7; 35]) with (z ++ [92; 7] ++ [35]) in E. rewrite app_assoc in E. apply app_inj_tail in E as [<- _].
      exists z. now right.
  - split; [now destruct z|]. split; [|split; [|split]].
    + intros I. rewrite in_app_iff in I. destruct I as [I|I]; [|cbn in I; intuition discriminate]. destruct (In10 10) as [G _]; [rewrite in_app_iff; now left|now apply G].
    + intros I. rewrite in_app_iff in I. destruct I as [I|I]; [|cbn in I; intuition discriminate]. destruct (In10 13) as [_ G]; [rewrite in_app_iff; now left|now apply G].
    + now apply no_closing.
    + split.
      * intros y E. change (z ++ [92; 35]) with (z ++ [92] ++ [35]) in E. rewrite app_assoc in E. apply app_inj_tail in E as [<- _]. exists z. now left.
      * rewrite <- Ik, !inked_app. reflexivity.
Qed.

(** ** Setext headings (C33) *)
Definition rune_width (l : bytes) : nat := List.length (filter (fun r => negb (r =? 7)) (runes l)).
Lemma fold_max_ge f (ls : list bytes) : forall w, (w <= fold_left (fun w p => Nat.max w (f p)) ls w)%nat.
Proof. induction ls as [|p ls IH]; intros w; cbn [fold_left]; [lia|]. specialize (IH (Nat.max w (f p))). lia. Qed.
Lemma fold_max_in f (ls : list bytes) p : In p ls -> forall w, (f p <= fold_left (fun w p => Nat.max w (f p)) ls w)%nat.
Proof.
  induction ls as [|q ls IH]; intros I w; [easy|]. cbn [fold_left]. destruct I as [->|I]; [|now apply IH].
  pose proof (fold_max_ge f ls (Nat.max w (f p))). lia.
Qed.
Lemma spaces_cut x y : spaces (x ++ 10 :: y) -> spaces x /\ spaces y.
Proof.
  intros H. remember (x ++ 10 :: y) as w eqn:Ew. revert x Ew. induction H as [|e r s D R S IH]; intros x Ew; [destruct x; discriminate|].
  destruct x as [|c x].
  - split; [constructor|]. cbn [app] in Ew. destruct e as [|d e]; [cbn in D; injection D as <-; discriminate|]. cbn [app] in Ew. injection Ew as -> Ew.
    pose proof (decode_rune_spec 10 e) as Sp. rewrite D in Sp. destruct Sp as [(_ & _ & Le)|(G & _)]; [|lia].
    destruct e; [|discriminate]. cbn [app] in Ew. now subst.
  - destruct e as [|d e]; [cbn in D; injection D as <-; discriminate|]. cbn [app] in Ew. injection Ew as -> Ew.
    assert (F : Forall (fun x => 128 <= x) e).
    { pose proof (decode_rune_spec c e) as Sp. rewrite D in Sp. destruct Sp as [(_ & _ & Le)|(_ & _ & _ & F)].
      - destruct e; [constructor|discriminate].
      - rewrite firstn_all in F. now inversion F. }
    assert (exists x', x = e ++ x' /\ s = x' ++ 10 :: y) as (x' & -> & Es).
    { clear - Ew F. revert x Ew. induction F as [|a e Ha F IHF]; intros x Ew; [now exists x|].
      destruct x as [|b0 x]; cbn [app] in Ew; injection Ew as -> Ew; [lia|].
      destruct (IHF _ Ew) as (x' & -> & ->). now exists x'. }
    destruct (IH x' Es) as [I1 I2]. split; [|easy]. now apply (spaces_cons (c :: e) r x').
Qed.
Lemma spaces32 k : spaces (repeat 32 k).
Proof. induction k as [|k IH]; [constructor|]. now apply spaces_cons32. Qed.
Lemma spaces_cons10 s : spaces s -> spaces (10 :: s).
Proof. intros H. apply (spaces_cons [10] 10 s); [reflexivity|reflexivity|exact H]. Qed.
Lemma squeeze_spaces_back s o : newline_squeeze s o -> spaces o -> spaces s.
Proof.
  induction 1 as [|x p q z o Q IH]; intros H; [easy|]. specialize (IH H).
  change (x ++ [10] ++ repeat 32 p ++ [10] ++ z) with (x ++ 10 :: (repeat 32 p ++ 10 :: z)) in IH.
  apply spaces_cut in IH as [Hx IH]. apply spaces_cut in IH as [Hp Hz].
  apply spaces_app; [easy|]. apply spaces_cons10. apply spaces_app; [easy|]. apply spaces_cons10. apply spaces_app; [apply spaces32|].
  now apply spaces_cons10.
Qed.
Lemma tcn_nonblank s : ~ spaces s -> ~ spaces (trim_consecutive_newlines s).
Proof. intros H E. apply H. eapply squeeze_spaces_back; [apply trim_newlines_squeeze|exact E]. Qed.
Lemma setext_heading level s : (level = 1 \/ level = 2)%nat -> trim_left (last (split_on 10 s) []) <> [] ->
  exists body w, heading_text true level s = Some ([10; 10] ++ body ++ [10] ++ repeat (if Nat.eqb level 1 then 61 else 45) w ++ [10; 10]) /\
  (3 <= w)%nat /\ (forall l, In l (split_on 10 body) -> (rune_width l <= w)%nat /\ ~ spaces l) /\ body = escape_multi_line (trim_consecutive_newlines s).
Proof.
  intros Hl L. unfold heading_text.
  assert (Ns : ~ spaces s).
  { intros H. apply L. apply trim_left_nil. destruct (exists_last (split_on_ne 10 s)) as (ps & p & E). rewrite E, last_last.
    rewrite <- (split_join 10 s), E in H. destruct ps as [|q ps]; [exact H|]. rewrite join_app in H by easy.
    apply (spaces_cut (join [10] (q :: ps)) p) in H. now destruct H. }
  destruct (trim_space s) as [|c0 t0] eqn:T; [now apply trim_space_nil in T|]. cbn [is_empty].
  replace (Nat.ltb level 3) with true by (symmetry; apply Nat.ltb_lt; lia). cbn [andb]. cbv zeta.
  set (body := escape_multi_line (trim_consecutive_newlines s)). exists body, (underline_width body 3).
  split; [reflexivity|]. unfold underline_width. split; [lia|]. split; [|reflexivity]. intros l I. split.
  - pose proof (fold_max_in visible_runes (split_on cNL body) l I O) as H. change (visible_runes l) with (rune_width l) in H. lia.
  - unfold body in I. destruct (escape_multi_spec (trim_consecutive_newlines s)) as [(ps & p & q & E & N & E2)|[(ps & p & q & E & N)|[E E2]]].
    + rewrite E2 in I. apply in_app_iff in I as [I|[<-|[]]].
      * apply in_map_iff in I as (x & <- & _). eapply broken_line_nonblank. apply multi_line_broken.
      * destruct (trim_left_text p N) as (l0 & _ & _ & R). now apply not_spaces.
    + exfalso. apply L. rewrite <- trim_newlines_last, E. replace (ps ++ [q; p]) with ((ps ++ [q]) ++ [p]) by now rewrite <- app_assoc.
      now rewrite last_last.
    + rewrite E2, E in I. destruct I as [<-|[]]. now apply tcn_nonblank.
Qed.

(** ** Options (C46) *)
Lemma one_of_in l v : one_of l v = true <-> In v l.
Proof.
  unfold one_of. rewrite existsb_exists. split.
  - intros (x & I & E). apply beqb_eq in E. now subst.
  - intros I. exists v. split; [easy|]. now apply beqb_eq.
Qed.
