(** Quoted names, the usage text, the version. *)
From Coq Require Import List NArith ZArith Arith Bool String Lia ZifyBool ZifyNat ZifyN.
From Verif Require Import Bytes Cli SpecCli CliText SpecCliText CliTextFacts1 CliTextFacts2.
Import ListNotations.
Open Scope N_scope.
Open Scope list_scope.

(** ** Decoding *)
Lemma div_mod_of a k q r : r < k -> a = q * k + r -> a / k = q /\ a mod k = r.
Proof.
  intros H E. subst a. rewrite N.add_comm. split.
  - rewrite N.div_add by lia. rewrite N.div_small by lia. lia.
  - rewrite N.mod_add by lia. apply N.mod_small. lia.
Qed.
Lemma utf8_2 x y : x < 64 -> y < 64 -> 2 <= x -> x < 32 -> utf8_of (x * 64 + y) = [192 + x; 128 + y].
Proof.
  intros. unfold utf8_of. rewrite (proj2 (N.ltb_ge _ 128)) by lia. rewrite (proj2 (N.ltb_lt _ 2048)) by lia.
  destruct (div_mod_of (x * 64 + y) 64 x y) as [-> ->]; [lia|lia|]. reflexivity.
Qed.
Lemma utf8_3 x y z : x < 16 -> y < 64 -> z < 64 -> 2048 <= x * 4096 + y * 64 + z ->
  utf8_of (x * 4096 + y * 64 + z) = [224 + x; 128 + y; 128 + z].
Proof.
  intros. unfold utf8_of. rewrite (proj2 (N.ltb_ge _ 128)) by lia. rewrite (proj2 (N.ltb_ge _ 2048)) by lia.
  rewrite (proj2 (N.ltb_lt _ 65536)) by lia.
  destruct (div_mod_of (x * 4096 + y * 64 + z) 4096 x (y * 64 + z)) as [-> _]; [lia|lia|].
  destruct (div_mod_of (x * 4096 + y * 64 + z) 64 (x * 64 + y) z) as [-> ->]; [lia|lia|].
  destruct (div_mod_of (x * 64 + y) 64 x y) as [_ ->]; [lia|lia|]. reflexivity.
Qed.
Lemma utf8_4 x y z u : x < 8 -> y < 64 -> z < 64 -> u < 64 -> 65536 <= x * 262144 + y * 4096 + z * 64 + u ->
  utf8_of (x * 262144 + y * 4096 + z * 64 + u) = [240 + x; 128 + y; 128 + z; 128 + u].
Proof.
  intros. unfold utf8_of. rewrite (proj2 (N.ltb_ge _ 128)) by lia. rewrite (proj2 (N.ltb_ge _ 2048)) by lia.
  rewrite (proj2 (N.ltb_ge _ 65536)) by lia.
  destruct (div_mod_of (x * 262144 + y * 4096 + z * 64 + u) 262144 x (y * 4096 + z * 64 + u)) as [-> _]; [lia|lia|].
  destruct (div_mod_of (x * 262144 + y * 4096 + z * 64 + u) 4096 (x * 64 + y) (z * 64 + u)) as [-> _]; [lia|lia|].
  destruct (div_mod_of (x * 262144 + y * 4096 + z * 64 + u) 64 (x * 4096 + y * 64 + z) u) as [-> ->]; [lia|lia|].
  destruct (div_mod_of (x * 64 + y) 64 x y) as [_ ->]; [lia|lia|].
  destruct (div_mod_of (x * 4096 + y * 64 + z) 64 (x * 64 + y) z) as [_ ->]; [lia|lia|]. reflexivity.
Qed.
Inductive decoded : bytes -> N -> nat -> Prop :=
| dec_ascii c t : c < 128 -> decoded (c :: t) c 1
| dec_bad c t : 128 <= c -> decoded (c :: t) rune_error 1
| dec_wide w t r n : n = List.length w -> (2 <= n)%nat -> 128 <= r -> r < 1114112 -> utf8_of r = w -> Forall (fun c => 128 <= c) w ->
    decoded (w ++ t) r n.
Lemma decode_cases c t r n : decode_rune (c :: t) = (r, n) -> decoded (c :: t) r n.
Proof.
  unfold decode_rune, in_range, is_cont, in_range. intros H.
  assert (Bad : 128 <= c -> (rune_error, 1%nat) = (r, n) -> decoded (c :: t) r n).
  { intros L E. injection E as <- <-. constructor. exact L. }
  destruct (c <? 128) eqn:E1. { injection H as <- <-. constructor. lia. }
  destruct ((194 <=? c) && (c <=? 223)) eqn:E2.
  { destruct t as [|b1 t]; [apply Bad; [lia|exact H]|].
    destruct ((128 <=? b1) && (b1 <=? 191)) eqn:E3; [|apply Bad; [lia|exact H]]. injection H as <- <-.
    apply (dec_wide [c; b1] t); [reflexivity|lia|lia|lia| |repeat constructor; lia].
    rewrite utf8_2 by lia. f_equal; [lia|f_equal; lia]. }
  destruct ((224 <=? c) && (c <=? 239)) eqn:E3.
  { destruct t as [|b1 [|b2 t]]; try (apply Bad; [lia|exact H]). cbn zeta in H.
    match type of H with (if ?x then _ else _) = _ => destruct x eqn:E4 end; [|apply Bad; [lia|exact H]]. injection H as <- <-.
    apply (dec_wide [c; b1; b2] t); [reflexivity|lia| | | |repeat constructor; destruct (c =? 224); destruct (c =? 237); lia].
    1,2: destruct (c =? 224) eqn:E5; destruct (c =? 237); lia.
    rewrite utf8_3 by (destruct (c =? 224) eqn:E5; destruct (c =? 237); lia).
    f_equal; [lia|f_equal; [destruct (c =? 224); destruct (c =? 237); lia|f_equal; destruct (c =? 224); destruct (c =? 237); lia]]. }
  destruct ((240 <=? c) && (c <=? 244)) eqn:E4; [|apply Bad; [lia|exact H]].
  destruct t as [|b1 [|b2 [|b3 t]]]; try (apply Bad; [lia|exact H]). cbn zeta in H.
  match type of H with (if ?x then _ else _) = _ => destruct x eqn:E5 end; [|apply Bad; [lia|exact H]]. injection H as <- <-.
  apply (dec_wide [c; b1; b2; b3] t); [reflexivity|lia| | | |repeat constructor; destruct (c =? 240); destruct (c =? 244); lia].
  1,2: destruct (c =? 240) eqn:E6; destruct (c =? 244) eqn:E7; lia.
  rewrite utf8_4 by (destruct (c =? 240) eqn:E6; destruct (c =? 244); lia).
  f_equal; [lia|f_equal; [destruct (c =? 240); destruct (c =? 244); lia|f_equal; [|f_equal]; destruct (c =? 240); destruct (c =? 244); lia]].
Qed.

(** ** Hexadecimal digits *)
Lemma hex_digit_value d : d < 16 -> hex_value (hex_digit d) = Some d.
Proof.
  intros H. unfold hex_digit, hex_value. destruct (d <? 10) eqn:E.
  - rewrite (proj2 (N.leb_le 48 _)), (proj2 (N.leb_le _ 57)) by lia. cbn [andb]. f_equal. lia.
  - rewrite (proj2 (N.leb_gt (87 + d) 57)) by lia. rewrite Bool.andb_false_r.
    rewrite (proj2 (N.leb_le 97 _)), (proj2 (N.leb_le _ 102)) by lia. cbn [andb]. f_equal. lia.
Qed.
Fixpoint tail16 (k : nat) : N := match k with O => 1 | S k => 16 * tail16 k end.
Lemma read_digits raw k : forall rest m v a, v < tail16 k ->
  read_literal (Digits (k + S m) a raw) (hex k v ++ rest) = read_literal (Digits (S m) (a * tail16 k + v) raw) rest.
Proof.
  induction k as [|k IH]; intros rest m v a H; cbn [tail16 hex Nat.add app] in *; [f_equal; f_equal; lia|].
  rewrite <- app_assoc. replace (S (k + S m)) with (k + S (S m))%nat by lia.
  assert (D : v / 16 < tail16 k) by (apply N.div_lt_upper_bound; lia).
  rewrite (IH _ (S m) (v / 16) a D). cbn [app read_literal]. rewrite hex_digit_value by (apply N.mod_lt; lia).
  f_equal. f_equal. generalize (N.div_mod v 16). lia.
Qed.
Lemma read_hex raw rest k v : v < tail16 (S k) ->
  read_literal (Digits (S k) 0 raw) (hex (S k) v ++ rest) =
  option_map (app (if raw then [v] else utf8_of v)) (read_literal Plain rest).
Proof.
  intros H. cbn [hex]. rewrite <- app_assoc. cbn [tail16] in H.
  assert (D : v / 16 < tail16 k) by (apply N.div_lt_upper_bound; lia).
  replace (S k) with (k + 1)%nat at 1 by lia. rewrite (read_digits raw k _ 0%nat (v / 16) 0 D). cbn [app read_literal].
  rewrite hex_digit_value by (apply N.mod_lt; lia).
  replace ((0 * tail16 k + v / 16) * 16 + v mod 16) with v by (generalize (N.div_mod v 16); lia). reflexivity.
Qed.

(** ** Quoted texts *)
Lemma read_plain c t : c <> 34 -> c <> 92 -> read_literal Plain (c :: t) = option_map (cons c) (read_literal Plain t).
Proof.
  intros H1 H2. cbn [read_literal]. destruct c as [|p]; [reflexivity|].
  repeat (destruct p as [p|p|]; try reflexivity; try congruence).
Qed.
Lemma map_map_option (x y : bytes) o : option_map (app x) (option_map (app y) o) = option_map (app (x ++ y)) o.
Proof. destruct o; cbn [option_map]; [rewrite app_assoc|]; reflexivity. Qed.
Lemma read_wide w rest : Forall (fun c => 128 <= c) w ->
  read_literal Plain (w ++ rest) = option_map (app w) (read_literal Plain rest).
Proof.
  induction 1 as [|c w H _ IH]; cbn [app]; [destruct (read_literal Plain rest); reflexivity|].
  rewrite read_plain by lia. rewrite IH. destruct (read_literal Plain rest); reflexivity.
Qed.
Lemma firstn_exact {A} (w t : list A) : firstn (List.length w) (w ++ t) = w.
Proof. rewrite firstn_app, Nat.sub_diag, firstn_all, app_nil_r. reflexivity. Qed.
Lemma skipn_exact {A} (w t : list A) : skipn (List.length w) (w ++ t) = t.
Proof. rewrite skipn_app, Nat.sub_diag, skipn_all. reflexivity. Qed.
Lemma read_slash t : read_literal Plain (92 :: t) = read_literal Slash t. Proof. destruct t; reflexivity. Qed.
Section quoted.
Variable is_print : N -> bool.
Lemma read_rune s r n rest : decoded s r n -> Forall (fun c => c < 256) s ->
  read_literal Plain (quote_rune is_print r n (firstn n s) ++ rest) = option_map (app (firstn n s)) (read_literal Plain rest).
Proof.
  intros D B. unfold quote_rune. destruct D as [c t H|c t H|w t r n Hn L H U W A].
  - cbn [firstn Nat.eqb andb]. assert (E : (c =? rune_error) = false) by (apply N.eqb_neq; unfold rune_error; lia). rewrite E.
    destruct ((c =? 34) || (c =? 92)) eqn:E1.
    { cbn [app]. rewrite read_slash. assert (c = 34 \/ c = 92) as [-> | ->] by lia; cbn; destruct (read_literal Plain rest); reflexivity. }
    unfold printable. rewrite (proj2 (N.ltb_lt c 128) H).
    destruct ((32 <=? c) && (c <? 127)) eqn:E2.
    { cbn [app]. rewrite read_plain by lia. destruct (read_literal Plain rest); reflexivity. }
    repeat match goal with |- context [if c =? ?k then _ else _] => destruct (c =? k) eqn:? end;
      try (match goal with E : (c =? _) = true |- _ => apply N.eqb_eq in E; subst c end;
           match goal with |- context [b ?x ++ rest] => let l := eval vm_compute in (b x) in change (b x) with l end;
           cbn [app]; rewrite read_slash; cbn [read_literal N.eqb Pos.eqb orb]; destruct (read_literal Plain rest); reflexivity).
    assert (Ex : (c <? 32) || (c =? 127) = true) by lia. rewrite Ex.
    rewrite <- app_assoc. change (b "\x") with [92; 120]. cbn [app]. rewrite read_slash. cbn [read_literal N.eqb Pos.eqb].
    rewrite read_hex by (cbn [tail16]; lia). reflexivity.
  - cbn [firstn Nat.eqb andb hd]. rewrite N.eqb_refl. rewrite <- app_assoc. change (b "\x") with [92; 120]. cbn [app].
    rewrite read_slash. cbn [read_literal N.eqb Pos.eqb]. rewrite read_hex; [reflexivity|]. inversion B. cbn [tail16]. lia.
  - rewrite Hn. rewrite firstn_exact. rewrite <- Hn.
    assert (E : Nat.eqb n 1 = false) by (apply Nat.eqb_neq; lia). rewrite E. cbn [andb].
    assert (E1 : (r =? 34) || (r =? 92) = false) by lia. rewrite E1.
    destruct (printable is_print r) eqn:P; [apply read_wide, A|].
    repeat match goal with |- context [if r =? ?k then _ else _] =>
      let E := fresh in assert (E : (r =? k) = false) by lia; rewrite E; clear E end.
    assert (Ex : (r <? 32) || (r =? 127) = false) by lia. rewrite Ex.
    destruct (r <? 65536) eqn:E2; rewrite <- app_assoc.
    + change (b "\u") with [92; 117]. cbn [app]. rewrite read_slash. cbn [read_literal N.eqb Pos.eqb].
      rewrite read_hex by (cbn [tail16]; lia). rewrite W. reflexivity.
    + change (b "\U") with [92; 85]. cbn [app]. rewrite read_slash. cbn [read_literal N.eqb Pos.eqb].
      rewrite read_hex by (cbn [tail16]; lia). rewrite W. reflexivity.
Qed.
Lemma quote_skip k : forall s, quote_from is_print k s = quote_from is_print 0 (skipn k s).
Proof. induction k as [|k IH]; intros [|c s]; try reflexivity. cbn [quote_from skipn]. apply IH. Qed.
Lemma decoded_width s r n : decoded s r n -> (1 <= n <= List.length s)%nat.
Proof. intros [c t H|c t H|w t r' n' Hn L H U W A]; cbn [List.length]; try lia. rewrite app_length. lia. Qed.
Lemma read_quote_from n : forall s rest, (List.length s <= n)%nat -> Forall (fun c => c < 256) s ->
  read_literal Plain (quote_from is_print 0 s ++ rest) = option_map (app s) (read_literal Plain rest).
Proof.
  induction n as [|n IH]; intros s rest L B.
  - destruct s; [|cbn [List.length] in L; lia]. cbn [quote_from app]. destruct (read_literal Plain rest); reflexivity.
  - destruct s as [|c t]; [cbn [quote_from app]; destruct (read_literal Plain rest); reflexivity|].
    cbn [quote_from]. destruct (decode_rune (c :: t)) as [r k] eqn:E. apply decode_cases in E.
    assert (Wd := decoded_width _ _ _ E). rewrite <- app_assoc, quote_skip, (read_rune _ _ _ _ E B).
    assert (Es : skipn (pred k) t = skipn k (c :: t)) by (destruct k; [lia|reflexivity]).
    rewrite Es, IH, map_map_option, firstn_skipn; [reflexivity| |].
    + rewrite skipn_length. cbn [List.length] in *. lia.
    + rewrite <- (firstn_skipn k (c :: t)) in B. apply Forall_app in B. apply B.
Qed.
Lemma read_quote s : Forall (fun c => c < 256) s -> read_quoted (quote is_print s) = Some s.
Proof.
  intros B. unfold quote. cbn [app]. change (read_quoted (34 :: ?x)) with (read_literal Plain x).
  rewrite (read_quote_from _ s [34] (le_n _) B). cbn [read_literal option_map]. rewrite app_nil_r. reflexivity.
Qed.
Definition calm (c : N) : Prop := 32 <= c /\ c <> 127.
Lemma calm_hex k : forall v, Forall calm (hex k v).
Proof.
  induction k as [|k IH]; intros v; cbn [hex]; [constructor|]. apply Forall_app. split; [apply IH|]. constructor; [|constructor].
  assert (v mod 16 < 16) by (apply N.mod_lt; lia). unfold calm, hex_digit. destruct (v mod 16 <? 10) eqn:E; lia.
Qed.
Lemma calm_lit x : forallb (fun c => (32 <=? c) && negb (c =? 127)) x = true -> Forall calm x.
Proof. intros H. apply Forall_forall. intros c C. rewrite forallb_forall in H. specialize (H c C). unfold calm. lia. Qed.
Lemma calm_rune s r n : decoded s r n -> Forall calm (quote_rune is_print r n (firstn n s)).
Proof.
  intros D. unfold quote_rune.
  destruct (Nat.eqb n 1 && (r =? rune_error)); [apply Forall_app; split; [apply calm_lit; reflexivity|apply calm_hex]|].
  destruct ((r =? 34) || (r =? 92)) eqn:E1; [repeat constructor; unfold calm; lia|].
  destruct (printable is_print r) eqn:P.
  - destruct D as [c t H|c t H|w t r n Hn L H U W A].
    + cbn [firstn]. unfold printable in P. rewrite (proj2 (N.ltb_lt c 128) H) in P. repeat constructor; lia.
    + cbn [firstn]. repeat constructor; lia.
    + rewrite Hn, firstn_exact. eapply Forall_impl; [|exact A]. cbn beta. unfold calm. lia.
  - repeat match goal with |- context [if r =? ?k then _ else _] => destruct (r =? k); [apply calm_lit; reflexivity|] end.
    destruct ((r <? 32) || (r =? 127)); [|destruct (r <? 65536)]; (apply Forall_app; split; [apply calm_lit; reflexivity|apply calm_hex]).
Qed.
Lemma calm_quote_from n : forall s, (List.length s <= n)%nat -> Forall calm (quote_from is_print 0 s).
Proof.
  induction n as [|n IH]; intros s L.
  - destruct s; [constructor|cbn [List.length] in L; lia].
  - destruct s as [|c t]; [constructor|]. cbn [quote_from]. destruct (decode_rune (c :: t)) as [r k] eqn:E. apply decode_cases in E.
    apply Forall_app. split; [apply calm_rune, E|]. rewrite quote_skip. apply IH. rewrite skipn_length. cbn [List.length] in *. lia.
Qed.
Lemma calm_quote s : Forall (fun c => 32 <= c /\ c <> 127) (quote is_print s).
Proof.
  unfold quote. apply Forall_app. split; [repeat constructor; lia|]. apply Forall_app.
  split; [apply (calm_quote_from _ s (le_n _))|repeat constructor; lia].
Qed.
End quoted.
