(** Valid UTF-8 as an automaton, and what keeps it valid (C62). *)
From Coq Require Import List NArith ZArith Bool String Lia ZifyBool ZifyNat ZifyN.
From Verif Require Import Bytes BytesFacts TextUtils RenderText Escape SpecEscape EscapeFacts EscapeFacts6 SpecDom SpecText TextFacts TextFacts2 RenderFacts RenderFacts3 RenderFacts4
  Dom DomUtils Engine CommonMark Table RenderInv LetterFacts SpecPlain PlainFacts2 EdgeFacts EdgeFacts2 SpecUtf8.
Import ListNotations.
Open Scope N_scope.
Open Scope list_scope.

(** what is expected: a character, one to three tails, or a restricted second octet *)
Inductive awaits := A0 | A1 | A2 | A3 | AE0 | AED | AF0 | AF4.
Definition within (lo hi c : N) : bool := (lo <=? c) && (c <=? hi).
Definition step (q : awaits) (c : N) : option awaits :=
  match q with
  | A0 => if c <=? 127 then Some A0 else if within 194 223 c then Some A1 else if c =? 224 then Some AE0 else if c =? 237 then Some AED
          else if within 225 239 c then Some A2 else if c =? 240 then Some AF0 else if within 241 243 c then Some A3 else if c =? 244 then Some AF4 else None
  | A1 => if within 128 191 c then Some A0 else None
  | A2 => if within 128 191 c then Some A1 else None
  | A3 => if within 128 191 c then Some A2 else None
  | AE0 => if within 160 191 c then Some A1 else None
  | AED => if within 128 159 c then Some A1 else None
  | AF0 => if within 144 191 c then Some A2 else None
  | AF4 => if within 128 143 c then Some A2 else None
  end.
Fixpoint run (q : awaits) (s : bytes) : option awaits :=
  match s with [] => Some q | c :: t => match step q c with Some r => run r t | None => None end end.
Definition valid (s : bytes) : Prop := run A0 s = Some A0.
Definition validb (s : bytes) : bool := match run A0 s with Some A0 => true | _ => false end.
Lemma validb_iff s : validb s = true <-> valid s.
Proof. unfold validb, valid. destruct (run A0 s) as [[]|]; split; congruence. Qed.
Lemma run_app x : forall q y, run q (x ++ y) = match run q x with Some r => run r y | None => None end.
Proof. induction x as [|c x IH]; intros q y; [reflexivity|]. cbn [app run]. destruct (step q c); auto. Qed.
Ltac octets := unfold step, within, tail_octet in *;
  repeat match goal with |- context [if ?x then _ else _] => let Q := fresh "Q" in destruct x eqn:Q; try lia end; auto.
Lemma run_step q c r s : step q c = Some r -> run q (c :: s) = run r s.
Proof. intros E. cbn [run]. now rewrite E. Qed.
Lemma char_valid w : utf8_char w -> valid w.
Proof.
  unfold valid. intros H. destruct H.
  - now rewrite (run_step A0 c A0) by octets.
  - now rewrite (run_step A0 c A1), (run_step A1 d A0) by octets.
  - now rewrite (run_step A0 224 AE0), (run_step AE0 d A1), (run_step A1 e A0) by octets.
  - now rewrite (run_step A0 c A2), (run_step A2 d A1), (run_step A1 e A0) by octets.
  - now rewrite (run_step A0 237 AED), (run_step AED d A1), (run_step A1 e A0) by octets.
  - now rewrite (run_step A0 c A2), (run_step A2 d A1), (run_step A1 e A0) by octets.
  - now rewrite (run_step A0 240 AF0), (run_step AF0 d A2), (run_step A2 e A1), (run_step A1 f A0) by octets.
  - now rewrite (run_step A0 c A3), (run_step A3 d A2), (run_step A2 e A1), (run_step A1 f A0) by octets.
  - now rewrite (run_step A0 244 AF4), (run_step AF4 d A2), (run_step A2 e A1), (run_step A1 f A0) by octets.
Qed.
Lemma valid_nil : valid []. Proof. reflexivity. Qed.
Lemma valid_app x y : valid x -> valid y -> valid (x ++ y).
Proof. unfold valid. intros A B. now rewrite run_app, A. Qed.
Lemma valid_rest x y : valid x -> valid (x ++ y) -> valid y.
Proof. unfold valid. intros A B. now rewrite run_app, A in B. Qed.
Lemma valid_of_utf8 s : utf8 s -> valid s.
Proof. intros (cs & F & ->). induction F as [|w cs H F IH]; [apply valid_nil|]. cbn [List.concat]. apply valid_app; auto. now apply char_valid. Qed.
Definition finishes (q : awaits) (w : bytes) : Prop :=
  match q with
  | A0 => w = []
  | A1 => exists d, tail_octet d /\ w = [d]
  | A2 => exists d e, tail_octet d /\ tail_octet e /\ w = [d; e]
  | A3 => exists d e f, tail_octet d /\ tail_octet e /\ tail_octet f /\ w = [d; e; f]
  | AE0 => exists d e, 160 <= d <= 191 /\ tail_octet e /\ w = [d; e]
  | AED => exists d e, 128 <= d <= 159 /\ tail_octet e /\ w = [d; e]
  | AF0 => exists d e f, 144 <= d <= 191 /\ tail_octet e /\ tail_octet f /\ w = [d; e; f]
  | AF4 => exists d e f, 128 <= d <= 143 /\ tail_octet e /\ tail_octet f /\ w = [d; e; f]
  end.
Lemma finishes_char c q w : step A0 c = Some q -> finishes q w -> utf8_char (c :: w).
Proof.
  unfold step. repeat match goal with |- context [if ?x then _ else _] => let Q := fresh "Q" in destruct x eqn:Q end; intros [= <-]; cbn [finishes]; unfold within in *.
  - intros ->. apply one_octet. lia.
  - intros (d & D & ->). apply two_octets; auto. lia.
  - intros (d & e & D & E & ->). replace c with 224 by lia. now apply three_octets_a.
  - intros (d & e & D & E & ->). replace c with 237 by lia. now apply three_octets_c.
  - intros (d & e & D & E & ->). destruct (c <=? 236) eqn:L; [apply three_octets_b|apply three_octets_d]; auto; lia.
  - intros (d & e & f & D & E & G & ->). replace c with 240 by lia. now apply four_octets_a.
  - intros (d & e & f & D & E & G & ->). apply four_octets_b; auto. lia.
  - intros (d & e & f & D & E & G & ->). replace c with 244 by lia. now apply four_octets_c.
Qed.
Lemma run_finish s : forall q, run q s = Some A0 -> exists w t, s = w ++ t /\ finishes q w /\ utf8 t.
Proof.
  induction s as [|c s IH]; intros q R.
  - injection R as ->. exists [], []. repeat split. exists []. split; [constructor|reflexivity].
  - cbn [run] in R. destruct (step q c) as [r|] eqn:E; [|discriminate]. destruct (IH r R) as (w & t & -> & F & U).
    assert (T : forall lo hi, within lo hi c = true -> lo <= c <= hi) by (unfold within; lia).
    destruct q.
    + exists [], (c :: w ++ t). split; [reflexivity|]. split; [reflexivity|]. destruct U as (cs & Fc & ->). exists ((c :: w) :: cs). split; [|reflexivity].
      constructor; auto. eapply finishes_char; eauto.
    + cbn [step] in E. destruct (within _ _ _) eqn:W; [|discriminate]. injection E as <-. apply T in W. cbn [finishes] in F. subst w. exists [c], t. split; [reflexivity|]. split; auto. exists c. auto.
    + cbn [step] in E. destruct (within _ _ _) eqn:W; [|discriminate]. injection E as <-. apply T in W. destruct F as (d & D & ->). exists [c; d], t. split; [reflexivity|]. split; auto. exists c, d. auto.
    + cbn [step] in E. destruct (within _ _ _) eqn:W; [|discriminate]. injection E as <-. apply T in W. destruct F as (d & e & D & G & ->). exists [c; d; e], t. split; [reflexivity|]. split; auto. exists c, d, e. auto.
    + cbn [step] in E. destruct (within _ _ _) eqn:W; [|discriminate]. injection E as <-. apply T in W. destruct F as (d & D & ->). exists [c; d], t. split; [reflexivity|]. split; auto. exists c, d. auto.
    + cbn [step] in E. destruct (within _ _ _) eqn:W; [|discriminate]. injection E as <-. apply T in W. destruct F as (d & D & ->). exists [c; d], t. split; [reflexivity|]. split; auto. exists c, d. auto.
    + cbn [step] in E. destruct (within _ _ _) eqn:W; [|discriminate]. injection E as <-. apply T in W. destruct F as (d & e & D & G & ->). exists [c; d; e], t. split; [reflexivity|]. split; auto. exists c, d, e. auto.
    + cbn [step] in E. destruct (within _ _ _) eqn:W; [|discriminate]. injection E as <-. apply T in W. destruct F as (d & e & D & G & ->). exists [c; d; e], t. split; [reflexivity|]. split; auto. exists c, d, e. auto.
Qed.
Lemma utf8_iff s : utf8 s <-> valid s.
Proof. split; [apply valid_of_utf8|]. intros V. apply run_finish in V as (w & t & -> & F & U). cbn [finishes] in F. now subst w. Qed.
(** a cut before an octet that is not a tail *)
Definition head_ok (v : bytes) : Prop := match v with [] => True | c :: _ => c < 128 \/ 191 < c end.
Lemma step_head q c r : c < 128 \/ 191 < c -> step q c = Some r -> q = A0.
Proof. intros H. destruct q; auto; unfold step, within; match goal with |- context [if ?x then _ else _] => destruct x eqn:Q; [lia|discriminate] end. Qed.
Lemma run_head q v r : head_ok v -> v <> [] -> run q v = Some r -> q = A0.
Proof. intros H N. destruct v as [|c v]; [congruence|]. cbn [run]. destruct (step q c) eqn:E; [|discriminate]. intros _. eapply step_head; eauto. Qed.
Lemma valid_cut x v : head_ok v -> valid (x ++ v) -> valid x /\ valid v.
Proof.
  intros H V. destruct v as [|c v]; [rewrite app_nil_r in V; split; auto; apply valid_nil|]. unfold valid in *. rewrite run_app in V. destruct (run A0 x) as [q|] eqn:E; [|discriminate].
  assert (q = A0) by (eapply run_head; eauto; discriminate). subst q. auto.
Qed.
(** ASCII bytes replaced by valid texts, everything else kept *)
Inductive edits : bytes -> bytes -> Prop :=
| ed_nil : edits [] []
| ed_same c s o : edits s o -> edits (c :: s) (c :: o)
| ed_sub c w s o : c < 128 -> valid w -> edits s o -> edits (c :: s) (w ++ o).
Lemma ascii_step q c r : c < 128 -> step q c = Some r -> q = A0 /\ r = A0.
Proof. intros L E. assert (q = A0) by (eapply step_head; eauto). subst q. split; auto. cbn [step] in E. replace (c <=? 127) with true in E by lia. congruence. Qed.
Lemma run_edits s o : edits s o -> forall q r, run q s = Some r -> run q o = Some r.
Proof.
  induction 1 as [|c s o H IH|c w s o L W H IH]; intros q r R; auto; cbn [run] in R.
  - cbn [run]. destruct (step q c); [auto|discriminate].
  - destruct (step q c) as [q'|] eqn:E; [|discriminate]. apply ascii_step in E as [-> ->]; auto. rewrite run_app. unfold valid in W. rewrite W. auto.
Qed.
Lemma valid_edits s o : edits s o -> valid s -> valid o.
Proof. intros H. exact (run_edits s o H A0 A0). Qed.
Lemma edits_refl s : edits s s. Proof. induction s; constructor; auto. Qed.
Lemma valid_ascii s : Forall (fun c => c < 128) s -> valid s.
Proof. induction 1 as [|c s L F IH]; [apply valid_nil|]. unfold valid in *. cbn [run step]. replace (c <=? 127) with true by lia. exact IH. Qed.
Ltac asc := apply valid_ascii; repeat constructor; try lia; discriminate.
Lemma valid_repeat c n : c < 128 -> valid (repeat c n).
Proof. intros A. apply valid_ascii. apply Forall_forall. intros x I. apply repeat_spec in I. now subst. Qed.
Lemma edits_drop c s o : c < 128 -> edits s o -> edits (c :: s) o.
Proof. intros L H. now apply (ed_sub c [] s o). Qed.
Lemma thin_edits s o : thin s o -> edits s o.
Proof. induction 1; [constructor|now constructor|apply edits_drop; auto; lia]. Qed.
Lemma slashed_edits s o : slashed s o -> edits s o.
Proof. induction 1 as [|c s o H IH|c s o I H IH]; [constructor|now constructor|]. apply (ed_sub c [92; c]); auto; [byte|]. apply valid_ascii. repeat constructor; byte. Qed.
Lemma unbelled_edits s o : unbelled s o -> edits s o.
Proof. induction 1; [constructor|now constructor|apply edits_drop; auto; lia|]. apply (ed_sub 7 [92]); auto; [lia|asc]. Qed.
Lemma rebelled_edits s o : rebelled s o -> edits s o.
Proof. induction 1; [constructor|now constructor|]. apply (ed_sub 7 [92]); auto; [lia|asc]. Qed.
Lemma swap_edits p new s : p < 128 -> valid new -> edits s (replace_all [p] new s).
Proof.
  intros P V. rewrite replace_all_one. induction s as [|c s IH]; [constructor|]. cbn [flat_map]. destruct (c =? p) eqn:E; [|now constructor].
  apply N.eqb_eq in E. subst c. now constructor.
Qed.
Lemma valid_swap p new s : p < 128 -> valid new -> valid s -> valid (replace_all [p] new s).
Proof. intros. eapply valid_edits; [now apply swap_edits|auto]. Qed.
(** the code block newlines replaced *)
Lemma run_marks new : valid new -> forall s q r, run q s = Some r -> run q (replace_all marker_nl new s) = Some r.
Proof.
  intros V s. remember (List.length s) as n eqn:L. revert s L. induction n as [n IH] using lt_wf_ind. intros s L q r R. destruct s as [|c s]; auto.
  rewrite replace_all_cons. destruct (has_prefix marker_nl (c :: s)) eqn:P.
  - apply has_prefix_iff in P as (t & P). unfold marker_nl in P. cbn [app] in P. injection P as -> ->.
    assert (q = A0) by (cbn [run] in R; destruct (step q 239) eqn:E; [|discriminate]; eapply step_head; eauto; lia). subst q. rewrite run_app. unfold valid in V. rewrite V.
    cbn [Nat.pred List.length marker_nl skipn]. eapply IH; [|reflexivity|exact R]. cbn [List.length] in L. lia.
  - cbn [run] in *. destruct (step q c); [|discriminate]. eapply IH; [|reflexivity|exact R]. cbn [List.length] in L. lia.
Qed.
Lemma valid_marks new s : valid new -> valid s -> valid (replace_all marker_nl new s).
Proof. intros A B. now apply run_marks. Qed.
Lemma marker_valid : valid marker_nl. Proof. reflexivity. Qed.
(** white space at the ends *)
Lemma space_valid e r : decode_rune e = (r, List.length e) -> is_space_rune r = true -> valid e.
Proof.
  intros D S. destruct e as [|c e]; [apply valid_nil|]. unfold decode_rune in D. unfold is_space_rune, rune_error in *.
  destruct (c <? 128) eqn:L.
  - inversion D as [[D1 D2]]; subst r. destruct e; [|discriminate]. apply valid_ascii. repeat constructor. lia.
  - destruct (in_range 194 223 c) eqn:R2.
    { destruct e as [|d e]; [inversion D; subst r; discriminate|]. destruct (is_cont d) eqn:Rd; [|inversion D; subst r; discriminate].
      inversion D as [[D1 D2]]. destruct e; [|discriminate]. unfold is_cont, in_range in *. apply char_valid. apply two_octets; unfold tail_octet; lia. }
    destruct (in_range 224 239 c) eqn:R3.
    { destruct e as [|d [|f e]]; [inversion D; subst r; discriminate|inversion D; subst r; discriminate|]. cbv zeta in D.
      destruct (_ && _) eqn:Rd; [|inversion D; subst r; discriminate].
      inversion D as [[D1 D2]]. destruct e; [|discriminate]. unfold is_cont, in_range in *. apply andb_true_iff in Rd as [Rd Rf].
      assert (Rd' : 128 <= d <= 191 /\ (c = 224 -> 160 <= d) /\ (c = 237 -> d <= 159)). { revert Rd. clear. destruct (c =? 224) eqn:E1, (c =? 237) eqn:E2; lia. }
      apply char_valid. destruct (N.eq_dec c 224) as [->|]; [apply three_octets_a; unfold tail_octet; lia|]. destruct (N.eq_dec c 237) as [->|]; [apply three_octets_c; unfold tail_octet; lia|].
      destruct (c <=? 236) eqn:LL; [apply three_octets_b|apply three_octets_d]; unfold tail_octet; lia. }
    destruct (in_range 240 244 c) eqn:R4; [|inversion D; subst r; discriminate].
    destruct e as [|d [|f [|g e]]]; try (inversion D; subst r; discriminate). cbv zeta in D.
    destruct (_ && _) eqn:Rd; [|inversion D; subst r; discriminate]. exfalso. inversion D as [[D1 D2]]. unfold is_cont, in_range in *.
    apply andb_true_iff in Rd as [Rd Rg]. apply andb_true_iff in Rd as [Rd Rf].
    assert (Rd' : 128 <= d <= 191 /\ (c = 240 -> 144 <= d)). { revert Rd. clear. destruct (c =? 240) eqn:E, (c =? 244); lia. }
    lia.
Qed.
Lemma spaces_valid u : spaces u -> valid u.
Proof. induction 1 as [|e r s D S _ IH]; [apply valid_nil|]. apply valid_app; auto. eapply space_valid; eauto. Qed.
Lemma valid_right x r : spaces r -> valid (x ++ r) -> valid x.
Proof.
  intros S V. pose proof (spaces_first r S) as F. apply valid_cut in V as [V _]; auto. destruct r as [|c r]; cbn; auto. unfold continuation in F. lia.
Qed.
Lemma valid_left l x : spaces l -> valid (l ++ x) -> valid x.
Proof. intros S. apply valid_rest. now apply spaces_valid. Qed.
Lemma valid_trim s : valid s -> valid (trim_space s).
Proof. destruct (trim_space_spaces s) as (l & r & E & L & R). rewrite E at 1. intros T. apply valid_left in T; auto. now apply valid_right in T. Qed.
Lemma valid_trim_left s : valid s -> valid (trim_left s).
Proof. destruct (trim_left_spaces s) as (l & E & L). rewrite E at 1. intros T. now apply valid_left in T. Qed.
Lemma valid_tcn x : valid x -> valid (trim_consecutive_newlines x).
Proof. apply valid_edits, thin_edits, thin_tcn. Qed.
Lemma valid_hard x : valid x -> valid (trim_hard_breaks x).
Proof. apply valid_edits, thin_edits, thin_hard. Qed.
Lemma valid_squeeze p x : valid x -> valid (squeeze_spaces p x).
Proof. apply valid_edits, thin_edits, squeeze_thin. Qed.
(** lines *)
Lemma valid_lines sep ls : sep < 128 -> valid (join [sep] ls) -> Forall valid ls.
Proof.
  intros L. induction ls as [|x [|y ls] IH]; intros V; [constructor|repeat constructor; exact V|]. rewrite join_cons in V by easy. cbn [app] in V. apply valid_cut in V as [V1 V2]; [|cbn; lia].
  constructor; auto. apply IH. apply (valid_rest [sep]); auto. apply valid_ascii. repeat constructor. auto.
Qed.
Lemma valid_split sep s : sep < 128 -> valid s -> Forall valid (split_on sep s).
Proof. intros L V. rewrite <- (split_join sep s) in V. eapply valid_lines; eauto. Qed.
Lemma valid_join sep ls : valid sep -> Forall valid ls -> valid (join sep ls).
Proof.
  intros V. induction 1 as [|x ls H F IH]; [apply valid_nil|]. destruct ls as [|y ls]; [exact H|]. rewrite join_cons by easy. apply valid_app; auto. now apply valid_app.
Qed.
Lemma valid_concat ls : Forall valid ls -> valid (List.concat ls).
Proof. induction 1; [apply valid_nil|]. cbn [List.concat]. now apply valid_app. Qed.
Lemma valid_map f ls : (forall x, valid x -> valid (f x)) -> Forall valid ls -> Forall valid (map f ls).
Proof. intros H. induction 1; constructor; auto. Qed.
Lemma valid_delimit d x : valid d -> valid x -> valid (delimit_line d x).
Proof.
  intros D V. unfold delimit_line. pose proof (surrounding_spaces_spec x) as S. destruct (surrounding_spaces x) as [[l t] r]. destruct S as (-> & Sl & Sr & _).
  apply valid_left in V; auto. apply valid_right in V; auto. apply spaces_valid in Sl, Sr. destruct (is_empty t); repeat apply valid_app; auto.
Qed.
Lemma valid_emphasis d x : valid d -> valid x -> valid (emphasis_text d x).
Proof.
  intros D V. unfold emphasis_text, delimiter_for_every_line. unfold cNL. apply valid_join; [asc|]. apply valid_map; [|apply valid_split; auto; lia]. intros y. now apply valid_delimit.
Qed.
Lemma valid_multi_parts ls : Forall valid ls -> valid (escape_multi_parts ls).
Proof.
  induction 1 as [|p ls H F IH]; [apply valid_nil|]. cbn [escape_multi_parts]. cbv zeta. apply valid_trim_left in H. apply valid_app; auto.
  destruct (is_empty _); [asc|]. destruct (is_empty ls); auto. destruct (has_suffix _ _); (apply valid_app; [auto|asc]).
Qed.
Lemma valid_multi x : valid x -> valid (escape_multi_line x).
Proof.
  intros V. unfold escape_multi_line, cNL. assert (F : Forall valid (split_on 10 x)) by (apply valid_split; auto; lia). apply valid_multi_parts in F. destruct (split_on 10 x) as [|p [|q l]]; auto.
Qed.
Lemma valid_prefix_lines x repl : valid repl -> valid x -> valid (prefix_lines x repl).
Proof.
  intros R V. unfold prefix_lines. apply valid_app; auto. eapply valid_edits; [|exact V]. clear V. induction x as [|c x IH]; [constructor|]. cbn [flat_map]. unfold cNL in *. destruct (c =? 10) eqn:E; [|now constructor].
  apply N.eqb_eq in E. subst c. apply (ed_sub 10 (10 :: repl)); auto; lia.
Qed.
Lemma valid_entity s : valid s -> valid (entity_replace s).
Proof.
  apply valid_edits. induction s as [|c s IH]; [constructor|]. cbn [entity_replace]. destruct (c =? 60) eqn:E1; [|destruct (c =? 62) eqn:E2; [|now apply ed_same]].
  - apply ed_sub; auto; [lia|asc].
  - apply ed_sub; auto; [lia|asc].
Qed.
Lemma valid_escape l s : (forall c, In c l -> inkb c) -> valid s -> valid (escape_content (is_escaped_in l) s).
Proof.
  intros Hl. assert (Hl' : forall c, In c l -> c < 128 /\ c <> 0 /\ c <> 7 /\ ~ ws_byte c) by (intros c I; apply Hl in I; unfold ws_byte; byte).
  apply valid_edits. induction s as [|c s IH]; [constructor|]. rewrite (escape_cons l Hl'). destruct (c =? 0) eqn:Z.
  - apply N.eqb_eq in Z. subst c. apply ed_sub; auto; [lia|reflexivity].
  - destruct (is_escaped_in l c) eqn:Q; [|now apply ed_same]. apply esc_in, Hl in Q. apply (ed_sub c [7; c]); auto; [byte|]. apply valid_ascii. repeat constructor; byte.
Qed.
