(** Bars in rendered texts follow the escaping marker or a backslash (C35). *)
From Coq Require Import List NArith ZArith Bool String Lia ZifyBool ZifyNat ZifyN.
From Verif Require Import Bytes BytesFacts TextUtils RenderText Escape SpecEscape EscapeFacts EscapeFacts6 SpecDom SpecText TextFacts TextFacts2 RenderFacts RenderFacts3 RenderFacts4
  Dom DomUtils Engine CommonMark Table RenderInv PanicFacts LetterFacts SpecEngine SpecPipeline PipelineFacts LetterFacts2 SpecTable TableFacts TableFacts2 TableFacts3.
Import ListNotations.
Open Scope N_scope.
Open Scope list_scope.

(** every bar follows a byte of [g]; p is the byte before *)
Section guarded.
Variable g : N -> bool.
Hypothesis g0 : g 0 = false.
Hypothesis gws : forall c, ws_byte c -> g c = false.
Fixpoint guarded (p : N) (s : bytes) : bool :=
  match s with [] => true | c :: t => (negb (c =? 124) || g p) && guarded c t end.
Definition ok (s : bytes) : Prop := guarded 0 s = true.
Lemma guarded_mono s : forall p q, (g p = true -> g q = true) -> guarded p s = true -> guarded q s = true.
Proof.
  destruct s as [|c s]; intros p q H G; [reflexivity|]. cbn [guarded] in *. apply andb_true_iff in G as [G1 G2]. rewrite G2, andb_true_r.
  destruct (c =? 124); [|reflexivity]. cbn in *. auto.
Qed.
Lemma guarded_any s p : ok s -> guarded p s = true.
Proof. apply guarded_mono. rewrite g0. discriminate. Qed.
Lemma guarded_weak s p : g p = false -> guarded p s = true -> ok s.
Proof. intros H. apply guarded_mono. congruence. Qed.
Lemma guarded_app x : forall p y, guarded p x = true -> ok y -> guarded p (x ++ y) = true.
Proof.
  induction x as [|c x IH]; intros p y H O; [now apply guarded_any|]. cbn [app guarded] in *. apply andb_true_iff in H as [H1 H2]. rewrite H1. cbn. auto.
Qed.
Lemma ok_app x y : ok x -> ok y -> ok (x ++ y). Proof. apply guarded_app. Qed.
Lemma guarded_front x : forall p y, guarded p (x ++ y) = true -> guarded p x = true.
Proof. induction x as [|c x IH]; intros p y H; [reflexivity|]. cbn [app guarded] in *. apply andb_true_iff in H as [H1 H2]. rewrite H1. cbn. eauto. Qed.
Lemma ok_front x y : ok (x ++ y) -> ok x. Proof. apply guarded_front. Qed.
Lemma last_default (x : bytes) p q : x <> [] -> last x p = last x q.
Proof. induction x as [|c x IH]; intros N; [easy|]. destruct x as [|d x]; [reflexivity|]. now apply IH. Qed.
Lemma guarded_back x : forall p y, guarded p (x ++ y) = true -> guarded (last x p) y = true.
Proof.
  induction x as [|c x IH]; intros p y H; [exact H|]. cbn [app guarded] in H. apply andb_true_iff in H as [_ H]. apply IH in H.
  destruct x as [|d x]; [exact H|]. change (last (c :: d :: x) p) with (last (d :: x) p). now rewrite (last_default _ p c).
Qed.
Lemma guarded_after x p y : g (last x p) = false -> guarded p (x ++ y) = true -> ok y.
Proof. intros H G. eapply guarded_weak; [exact H|]. now apply guarded_back. Qed.
Lemma last_all (P : N -> Prop) x p : P p -> Forall P x -> P (last x p).
Proof. intros H F. induction F as [|c x Hc F IH]; [exact H|]. destruct x; [exact Hc|exact IH]. Qed.
Lemma ok_back x y : Forall (fun c => g c = false) x -> ok (x ++ y) -> ok y.
Proof. intros F. apply guarded_after. now apply (last_all (fun c => g c = false)). Qed.
Lemma ok_lacks s : ~ In 124 s -> ok s.
Proof.
  unfold ok. intros H. assert (K : forall p, guarded p s = true); [|apply K]. induction s as [|c s IH]; intros p; [reflexivity|]. cbn [guarded].
  rewrite IH by (intros I; apply H; now right). destruct (c =? 124) eqn:E; [|reflexivity]. apply N.eqb_eq in E. elim H. now left.
Qed.
Lemma ws_all l : Forall ws_byte l -> Forall (fun c => g c = false) l.
Proof. intros F. eapply Forall_impl; [|exact F]. auto. Qed.
Lemma ok_trim s : ok s -> ok (trim_space s).
Proof.
  intros H. destruct (trim_space_ws s) as (l & r & E & Fl & _). rewrite E in H. apply ok_back in H; [|now apply ws_all]. now apply ok_front in H.
Qed.
Lemma ok_trim_left s : ok s -> ok (trim_left s).
Proof. intros H. destruct (trim_left_ws s) as (l & E & Fl). rewrite E in H. apply ok_back in H; [auto|now apply ws_all]. Qed.
(** bytes dropped after the start of z *)
Lemma ok_cut x y z : y <> [] -> g (last y 0) = false -> ok (x ++ y ++ z) -> ok (x ++ z).
Proof.
  intros N L H. apply ok_app; [now apply ok_front in H|]. apply guarded_back in H. eapply guarded_after; [|exact H]. now rewrite (last_default _ _ 0).
Qed.
Lemma last_app_one (x : bytes) c p : last (x ++ [c]) p = c.
Proof. apply last_last. Qed.
Lemma ok_tcn s : ok s -> ok (trim_consecutive_newlines s).
Proof.
  intros H. pose proof (trim_newlines_squeeze s) as Q. revert H. induction Q as [s|x p q z o Q IH]; intros H; [exact H|]. apply IH.
  replace (x ++ [10] ++ repeat 32 p ++ [10] ++ z) with ((x ++ [10] ++ repeat 32 p ++ [10]) ++ z) by now rewrite <- !app_assoc.
  apply (ok_cut _ (repeat 32 q ++ [10])).
  - now destruct q.
  - rewrite last_last. apply gws. unfold ws_byte. lia.
  - now rewrite <- !app_assoc.
Qed.
Lemma ok_replace old new s : old <> [] -> g (last old 0) = false -> ok new -> ok s -> ok (replace_all old new s).
Proof.
  intros N L Hn H. assert (K : forall p, guarded p s = true -> guarded p (replace_all old new s) = true); [|now apply K]. clear H.
  apply (replace_ind old new (fun s o => forall p, guarded p s = true -> guarded p o = true)); auto.
  - intros r o IH p H. apply guarded_app; [now apply guarded_any|]. apply IH. eapply guarded_after; [|exact H]. now rewrite (last_default _ _ 0).
  - intros c t o _ IH p H. cbn [guarded] in *. apply andb_true_iff in H as [H1 H2]. rewrite H1. cbn. auto.
Qed.
Lemma nlg : g 10 = false. Proof. apply gws. unfold ws_byte. lia. Qed.
Lemma ok_hard s : ok s -> ok (trim_hard_breaks s).
Proof. intros H. unfold trim_hard_breaks. repeat (apply ok_replace; [discriminate|exact nlg|reflexivity|]). exact H. Qed.
Lemma ok_split s : ok s -> Forall ok (split_on 10 s).
Proof.
  rewrite <- (split_join 10 s) at 1. generalize (split_on 10 s). induction l as [|x l IH]; intros H; [constructor|]. destruct l as [|y l].
  - constructor; [exact H|constructor].
  - rewrite join_cons in H by easy. constructor; [now apply ok_front in H|]. apply IH. rewrite app_assoc in H.
    eapply guarded_after; [|exact H]. rewrite last_last. exact nlg.
Qed.
Lemma ok_join l : Forall ok l -> ok (join [10] l).
Proof.
  induction 1 as [|x l H F IH]; [reflexivity|]. destruct l; [exact H|]. rewrite join_cons by easy. apply ok_app; [easy|]. now apply (ok_app [10]).
Qed.
Lemma ok_surround s : ok s -> let '(l, t, r) := surrounding_spaces s in ok l /\ ok t /\ ok r.
Proof.
  intros H. pose proof (surrounding_spaces_spec s) as S. destruct (surrounding_spaces s) as [[l t] r]. destruct S as (-> & Sl & Sr & _).
  apply spaces_ws in Sl, Sr.
  assert (K : forall u, Forall ws_byte u -> ok u).
  { intros u F. apply ok_lacks. intros I. rewrite Forall_forall in F. apply F in I. unfold ws_byte in I. lia. }
  split; [auto|split; [|auto]]. apply ok_back in H; [|now apply ws_all]. now apply ok_front in H.
Qed.
Lemma ok_delim d s : ~ In 124 d -> ok s -> ok (emphasis_text d s).
Proof.
  intros D H. unfold emphasis_text, delimiter_for_every_line. apply ok_join. apply ok_split in H. apply Forall_forall. intros x I.
  apply in_map_iff in I as (y & <- & I). rewrite Forall_forall in H. apply H in I. unfold delimit_line. pose proof (ok_surround y I) as S.
  destruct (surrounding_spaces y) as [[l t] r]. destruct S as (A & B & C). apply ok_lacks in D. destruct (is_empty t); repeat apply ok_app; auto.
Qed.
Lemma ok_multi_parts l : Forall ok l -> ok (escape_multi_parts l).
Proof.
  induction 1 as [|x l H F IH]; [reflexivity|]. cbn [escape_multi_parts]. cbv zeta. apply ok_app; [|exact IH]. apply ok_trim_left in H.
  destruct (is_empty (trim_left x)); [reflexivity|]. destruct (is_empty l); [exact H|]. destruct (has_suffix _ _); apply ok_app; auto; reflexivity.
Qed.
Lemma ok_multi s : ok s -> ok (escape_multi_line s).
Proof.
  intros H. unfold escape_multi_line. unfold cNL. pose proof (ok_split s H) as F. pose proof (ok_multi_parts _ F) as G. destruct (split_on 10 s) as [|x [|y l]]; auto.
Qed.
Lemma ok_prefix s r : ~ In 124 r -> ok s -> ok (prefix_lines s r).
Proof.
  intros N H. unfold prefix_lines. apply ok_lacks in N. apply ok_app; [exact N|].
  assert (K : forall p, guarded p s = true -> guarded p (flat_map (fun c => if c =? cNL then c :: r else [c]) s) = true); [|now apply K].
  clear H. induction s as [|c s IH]; intros p H; [reflexivity|]. cbn [flat_map guarded] in *. apply andb_true_iff in H as [H1 H2].
  destruct (c =? cNL) eqn:E.
  - apply N.eqb_eq in E. subst c. cbn [app guarded]. unfold cNL at 1. change (negb (10 =? 124)) with true. cbn [orb andb].
    apply guarded_app; [now apply guarded_any|]. apply IH. eapply guarded_weak; [exact nlg|exact H2].
  - cbn [app guarded]. rewrite H1. cbn [andb]. auto.
Qed.
Lemma ok_quote s : ok s -> ok (blockquote_text s).
Proof.
  intros H. unfold blockquote_text. cbv zeta. apply ok_trim in H. destruct (is_empty _); [reflexivity|].
  apply (ok_app [10; 10]); [reflexivity|]. apply ok_app; [|reflexivity]. apply ok_prefix; [cbn; intuition discriminate|]. now apply ok_hard, ok_tcn.
Qed.
End guarded.

(** ** The two guards *)
Definition mark_or_bsl (c : N) : bool := (c =? 7) || (c =? 92).
Definition bsl (c : N) : bool := c =? 92.
Notation okm := (ok mark_or_bsl).
Notation okb := (ok bsl).
Lemma m0 : mark_or_bsl 0 = false. Proof. reflexivity. Qed.
Lemma mws c : ws_byte c -> mark_or_bsl c = false. Proof. unfold ws_byte, mark_or_bsl. lia. Qed.
Lemma b0 : bsl 0 = false. Proof. reflexivity. Qed.
Lemma bws c : ws_byte c -> bsl c = false. Proof. unfold ws_byte, bsl. lia. Qed.

Lemma bar_replaced s : okm s -> okb (replace_all [marker_esc; 124] [92; 124] s).
Proof.
  intros H. assert (K : forall p, guarded mark_or_bsl p s = true -> (p = 7 -> hd 0 s <> 124) -> guarded bsl p (replace_all [marker_esc; 124] [92; 124] s) = true).
  { clear H. apply (replace_ind [marker_esc; 124] [92; 124] (fun s o => forall p, guarded mark_or_bsl p s = true -> (p = 7 -> hd 0 s <> 124) -> guarded bsl p o = true));
      [discriminate|reflexivity| |].
    - intros r o IH p H _. cbn [app guarded] in *. change (92 =? 124) with false. cbn [negb orb andb]. change (bsl 92) with true. rewrite orb_true_r. cbn [andb].
      apply IH; [|discriminate]. apply andb_true_iff in H as [_ H]. now apply andb_true_iff in H as [_ H].
    - intros c t o E IH p H K. cbn [guarded hd] in *. apply andb_true_iff in H as [H1 H2]. apply andb_true_iff. split.
      + destruct (c =? 124) eqn:C; [|reflexivity]. apply N.eqb_eq in C. subst c. cbn in H1. cbn. unfold mark_or_bsl in H1. unfold bsl. 
        destruct (p =? 7) eqn:P; [|exact H1]. apply N.eqb_eq in P. now elim (K P).
      + apply IH; [exact H2|]. intros -> H. destruct t as [|d t]; [discriminate|]. cbn [hd] in H. subst d. discriminate. }
  apply K; [exact H|]. discriminate.
Qed.
Lemma okb_filter s : okb s -> okb (filter (fun c => negb (c =? 7)) s).
Proof.
  assert (K : forall p, guarded bsl p s = true -> guarded bsl p (filter (fun c => negb (c =? 7)) s) = true); [|apply K].
  induction s as [|c s IH]; intros p H; [reflexivity|]. cbn [filter guarded] in *. apply andb_true_iff in H as [H1 H2]. destruct (c =? 7) eqn:E; cbn [negb].
  - apply N.eqb_eq in E. subst c. apply IH. eapply guarded_mono; [|exact H2]. discriminate.
  - cbn [guarded]. rewrite H1. cbn. auto.
Qed.
Lemma okb_inserts s o : inserts s o -> okb s -> okb o.
Proof.
  intros I. assert (K : forall p, guarded bsl p s = true -> guarded bsl p o = true); [|apply K].
  induction I as [|c t u I IH|c t u I IH]; intros p H; [reflexivity| |]; cbn [guarded] in *; apply andb_true_iff in H as [H1 H2].
  - rewrite H1. cbn. auto.
  - change (92 =? 124) with false. change (bsl 92) with true. rewrite orb_true_r. cbn. auto.
Qed.
Lemma cell_guarded e ds s : Forall well_behaved ds -> (forall x, unescape_fn e x = unescape_content ds x) -> okm s -> okb (cell_text e s).
Proof.
  intros W E H. unfold cell_text. rewrite E. eapply okb_inserts; [now apply content_inserts|]. apply okb_filter, bar_replaced, ok_trim; auto using m0, mws.
Qed.
Lemma guarded_one_cell s : okb s -> forall u v, s = u ++ 124 :: v -> exists w, u = w ++ [92].
Proof.
  intros H u v ->. apply guarded_back in H. cbn [guarded] in H. apply andb_true_iff in H as [H _]. change (negb (124 =? 124)) with false in H. cbn [orb] in H.
  apply N.eqb_eq in H. destruct (snoc_cases u) as [->|(z & c & ->)]; [discriminate|]. rewrite last_last in H. subst c. now exists z.
Qed.
