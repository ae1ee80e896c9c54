(** Facts for C62: the modelled function that makes addresses absolute turns valid UTF-8 into valid UTF-8. *)
From Coq Require Import List NArith ZArith Bool String Lia ZifyBool ZifyNat ZifyN.
From Verif Require Import Bytes BytesFacts NetUrl Url SpecUrl UrlFacts UrlFacts2 SpecUtf8 Utf8Facts.
Import ListNotations.
Open Scope N_scope.
Open Scope list_scope.

Lemma small_sub x y : small y -> (forall c, In c x -> In c y) -> small x.
Proof. intros S H c I. auto. Qed.
Lemma small_app x y : small x -> small y -> small (x ++ y).
Proof. intros A B c I. apply in_app_iff in I as [I|I]; auto. Qed.
Lemma small_valid s : valid s -> small s.
Proof.
  intros V. assert (G : forall s q r, run q s = Some r -> small s).
  { clear. induction s as [|c s IH]; intros q r R; [intros c []|]. cbn [run] in R. destruct (step q c) as [q'|] eqn:E; [|discriminate].
    intros d [<-|I]; [|eapply IH; eauto]. destruct q; cbn [step] in E; unfold within in E;
    repeat match type of E with (if ?x then _ else _) = _ => destruct x eqn:? end; try discriminate; lia. }
  eapply G; eauto.
Qed.
Lemma unescape_small m s : forall t, url_unescape m s = Some t -> small s -> small t.
Proof.
  apply (two_ind (fun s => forall t, url_unescape m s = Some t -> small s -> small t)).
  - intros t [= <-] _ c [].
  - intros c s' IH1 IH2 t. cbn [url_unescape]. intros E S. assert (S' : small s') by (intros d I; apply S; now right).
    destruct (c =? 37).
    + destruct s' as [|h [|l r]]; try discriminate. destruct (unhex h) as [x|] eqn:X; [|discriminate]. destruct (unhex l) as [y|] eqn:Y; [|discriminate].
      cbv zeta in E. match type of E with (if ?x then _ else _) = _ => destruct x end; [discriminate|]. destruct (url_unescape m r) as [t'|] eqn:T; [|discriminate]. injection E as <-.
      apply unhex_value in X, Y. intros d [<-|I]; [unfold hex_value in *; lia|]. eapply (IH2 h l r eq_refl t'); eauto. intros e J. apply S. right. right. now right.
    + match type of E with (if ?x then _ else _) = _ => destruct x end.
      * destruct (url_unescape m s') as [t'|] eqn:T; [|discriminate]. injection E as <-. intros d [<-|I]; [lia|]. eapply IH1; eauto.
      * match type of E with (if ?x then _ else _) = _ => destruct x end; [discriminate|]. destruct (url_unescape m s') as [t'|] eqn:T; [|discriminate]. injection E as <-.
        intros d [<-|I]; [apply S; now left|]. eapply IH1; eauto.
Qed.
Definition ascii (s : bytes) : Prop := Forall (fun c => c < 128) s.
Lemma byte_in_ascii l c : ascii l -> byte_in l c = true -> c < 128.
Proof. intros A H. unfold byte_in in H. apply existsb_exists in H as (d & I & E). apply N.eqb_eq in E. subst d. unfold ascii in A. rewrite Forall_forall in A. auto. Qed.
Lemma unescaped_ascii m c : should_escape m c = false -> c < 128.
Proof.
  unfold should_escape, is_letter, is_digit, in_range. destruct ((97 <=? c) && (c <=? 122) || (65 <=? c) && (c <=? 90) || (48 <=? c) && (c <=? 57)) eqn:L; [lia|].
  assert (Q : forall l, ascii l -> byte_in l c = true -> c < 128) by (intros l; apply byte_in_ascii).
  destruct (_ && byte_in (b "!$&'()*+,;=:[]<>""") c) eqn:E1; [intros _; apply andb_true_iff in E1 as [_ E1]; eapply Q; [|eauto]; repeat constructor|].
  destruct (byte_in (b "-_.~") c) eqn:E2; [intros _; eapply Q; [|eauto]; repeat constructor|].
  destruct (byte_in (b "$&+,/:;=?@") c) eqn:E3; [intros _; eapply Q; [|eauto]; repeat constructor|].
  destruct (_ && byte_in (b "!()*") c) eqn:E4; [intros _; apply andb_true_iff in E4 as [_ E4]; eapply Q; [|eauto]; repeat constructor|discriminate].
Qed.
Lemma escape_ascii m s : small s -> ascii (url_escape m s).
Proof.
  intros S. unfold url_escape, ascii. apply Forall_flat_map. apply Forall_forall. intros c I. apply S in I. unfold escape_byte.
  destruct (should_escape m c) eqn:E; [|constructor; [now apply unescaped_ascii in E|constructor]].
  destruct (_ && _); [repeat constructor|]. repeat constructor; unfold hex_digit.
  - assert (c / 16 < 16) by (apply N.div_lt_upper_bound; lia). destruct (_ <? _); lia.
  - assert (c mod 16 < 16) by (apply N.mod_lt; lia). destruct (_ <? _); lia.
Qed.
Lemma encoded_ascii m s : valid_encoded m s = true -> ascii s.
Proof.
  unfold valid_encoded, ascii. intros H. apply Forall_forall. rewrite forallb_forall in H. intros c I. apply H in I. apply orb_true_iff in I as [I|I].
  - eapply byte_in_ascii; [|eauto]. repeat constructor.
  - apply negb_true_iff in I. now apply unescaped_ascii in I.
Qed.
Lemma part_ascii m r v : small v -> ascii (escaped_part m r v).
Proof.
  intros S. unfold escaped_part. destruct (negb (is_empty r) && valid_encoded m r && _) eqn:E.
  - apply andb_prop in E as [E _]. apply andb_prop in E as [_ E]. now apply encoded_ascii in E.
  - destruct (beqb v (b "*")); [repeat constructor|now apply escape_ascii].
Qed.
Lemma ascii_small s : ascii s -> small s.
Proof. intros A c I. unfold ascii in A. rewrite Forall_forall in A. apply A in I. lia. Qed.
Definition small_user (i : option (bytes * option bytes)) : Prop :=
  match i with None => True | Some (n, p) => small n /\ match p with None => True | Some q => small q end end.
Record fine (u : url) : Prop := {
  fi_scheme : valid (u_scheme u); fi_opaque : valid (u_opaque u); fi_query : valid (u_raw_query u); fi_user : small_user (u_user u);
  fi_host : small (u_host u); fi_path : small (u_path u); fi_fragment : small (u_fragment u) }.
Lemma string_valid u : fine u -> valid (url_string u).
Proof.
  intros [A B C D E F G].
  assert (P : valid (escaped_path u)) by (apply valid_ascii; now apply part_ascii).
  assert (R : valid (escaped_fragment u)) by (apply valid_ascii; now apply part_ascii).
  assert (H : valid (url_escape EncHost (u_host u))) by (apply valid_ascii; now apply escape_ascii).
  assert (U : valid (match u_user u with Some i => user_string i ++ [64] | None => [] end)).
  { destruct (u_user u) as [[n p]|]; [|apply valid_nil]. cbn [small_user] in D. destruct D as [D1 D2]. apply valid_app; [|reflexivity]. unfold user_string. cbn [fst snd]. apply valid_app; [apply valid_ascii; now apply escape_ascii|].
    destruct p as [q|]; [|apply valid_nil]. apply (valid_app [58]); [reflexivity|]. apply valid_ascii. now apply escape_ascii. }
  assert (Cons : forall c s, c < 128 -> valid s -> valid (c :: s)) by (intros c s L V; apply (valid_app [c]); auto; apply valid_ascii; repeat constructor; auto).
  unfold url_string. cbv zeta.
  repeat match goal with |- valid (_ ++ _) => apply valid_app | |- valid (if ?x then _ else _) => destruct x | |- valid (_ :: _) => apply Cons; [lia|] end; auto; apply valid_nil.
Qed.
Lemma set_path_fine p u u' : set_path p u = Some u' -> small p -> fine u -> fine u'.
Proof. unfold set_path. destruct (url_unescape EncPath p) as [q|] eqn:E; [|discriminate]. intros [= <-] S []. constructor; auto. cbn. eapply unescape_small; eauto. Qed.
Lemma set_fragment_fine p u u' : set_fragment p u = Some u' -> small p -> fine u -> fine u'.
Proof. unfold set_fragment. destruct (url_unescape EncFragment p) as [q|] eqn:E; [|discriminate]. intros [= <-] S []. constructor; auto. cbn. eapply unescape_small; eauto. Qed.
Lemma lower_valid s : valid s -> valid (to_lower s).
Proof.
  apply valid_edits. induction s as [|c s IH]; [constructor|]. cbn [to_lower map]. destruct (in_range 65 90 c) eqn:E; [|now constructor].
  apply (ed_sub c [c + 32]); auto; unfold in_range in E; [lia|]. apply valid_ascii. repeat constructor. lia.
Qed.
Lemma cut_at_valid sep s x y : sep < 128 -> cut_at sep s = Some (x, y) -> valid s -> valid x /\ valid y.
Proof.
  intros L E V. apply cut_at_eq in E as [-> _]. apply valid_cut in V as [A B]; [|now left]. split; auto. apply valid_rest in B; auto. apply valid_ascii. repeat constructor. auto.
Qed.
Lemma cut_valid sep s x y : sep < 128 -> cut sep s = (x, y) -> valid s -> valid x /\ valid y.
Proof. intros L E V. unfold cut in E. destruct (cut_at sep s) as [[? ?]|] eqn:C; injection E as <- <-; [eapply cut_at_valid; eauto|split; auto; apply valid_nil]. Qed.
Lemma cut_last_sub sep s x y : cut_last sep s = Some (x, y) -> (forall c, In c x -> In c s) /\ (forall c, In c y -> In c s).
Proof.
  unfold cut_last. destruct (cut_at sep (rev s)) as [[p q]|] eqn:E; [|discriminate]. intros [= <- <-]. apply cut_at_eq in E as [E _].
  assert (X : forall c, In c (p ++ [sep] ++ q) -> In c s) by (intros c I; rewrite <- E in I; now apply in_rev).
  split; intros c I; apply X; apply in_rev in I; apply in_app_iff; [right; now right|now left].
Qed.
Lemma host_small a h : parse_host a = Some h -> small a -> small h.
Proof.
  unfold parse_host. intros E S. destruct (has_prefix (b "[") a).
  - destruct (cut_last 93 a) as [[i p]|] eqn:C; [|discriminate]. destruct (negb (valid_port p)); [discriminate|]. apply cut_last_sub in C as [C1 C2].
    destruct (index_of (b "%25") i) as [z|].
    + unfold opt_app in E. destruct (url_unescape EncHost (firstn z i)) as [x|] eqn:E1; [|discriminate]. destruct (url_unescape EncZone (skipn z i)) as [y|] eqn:E2; [|discriminate].
      destruct (url_unescape EncHost (93 :: p)) as [w|] eqn:E3; [|discriminate]. injection E as <-.
      apply unescape_small in E1; [|intros c I; apply S, C1; now apply firstn_In in I]. apply unescape_small in E2; [|intros c I; apply S, C1; now apply skipn_In in I].
      apply unescape_small in E3; [|intros c [<-|I]; [lia|apply S; now apply C2]]. apply small_app; auto. apply small_app; auto.
    + now apply unescape_small in E.
  - cbv zeta in E. destruct (match cut_last 58 a with Some (_, p) => _ | None => _ end); [|discriminate]. now apply unescape_small in E.
Qed.
Lemma authority_small a i h : parse_authority a = Some (i, h) -> small a -> small_user i /\ small h.
Proof.
  unfold parse_authority. intros E S. destruct (cut_last 64 a) as [[f g]|] eqn:C.
  - apply cut_last_sub in C as [C1 C2]. assert (Sf : small f) by exact (small_sub f a S C1). assert (Sg : small g) by exact (small_sub g a S C2).
    destruct (parse_host g) as [h'|] eqn:H; [|discriminate]. apply host_small in H; auto. destruct (negb (valid_userinfo f)); [discriminate|].
    destruct (cut_at 58 f) as [[n p]|] eqn:K.
    + apply cut_at_eq in K as [-> _]. destruct (url_unescape EncUser n) as [n'|] eqn:U1; [|discriminate]. destruct (url_unescape EncUser p) as [p'|] eqn:U2; [|discriminate]. injection E as <- <-.
      split; auto. cbn. split; [apply unescape_small in U1; auto|apply unescape_small in U2; auto]; intros c I; apply Sf; apply in_app_iff; [now left|right; now right].
    + destruct (url_unescape EncUser f) as [n'|] eqn:U1; [|discriminate]. injection E as <- <-. apply unescape_small in U1; auto. repeat split; auto.
  - destruct (parse_host a) as [h'|] eqn:H; [|discriminate]. injection E as <- <-. apply host_small in H; auto. now split.
Qed.
Lemma parse_fine raw u : valid raw -> parse_no_fragment raw = Some u -> fine u.
Proof.
  intros V. unfold parse_no_fragment. destruct (existsb is_ctl raw); [discriminate|].
  destruct (beqb raw (b "*")); [intros [= <-]; constructor; try reflexivity; cbn; intros c I; cbn in I; intuition lia|].
  destruct (get_scheme raw) as [[sch rest]|] eqn:Gs; [|discriminate].
  assert (Hv : valid sch /\ valid rest).
  { unfold get_scheme in Gs. destruct (scheme_len 0 raw) as [[k|]|] eqn:SL; try discriminate; injection Gs as <- <-; [|split; auto; apply valid_nil].
    apply scheme_len_no2 in SL as (_ & _ & SL). rewrite Nat.sub_0_r in SL. apply nth_error_split_at in SL. rewrite SL in V. apply valid_cut in V as [A B]; [|left; lia]. split; auto.
  }
  destruct Hv as [Vs Vr]. cbv zeta.
  destruct (if has_suffix [63] rest && Nat.eqb (count_byte 63 rest) 1 then (removelast rest, []) else cut 63 rest) as [r q] eqn:Q.
  assert (Hq : valid r /\ valid q).
  { destruct (has_suffix [63] rest && Nat.eqb (count_byte 63 rest) 1) eqn:F.
    - injection Q as <- <-. split; [|apply valid_nil]. apply andb_true_iff in F as [F1 F2]. apply Nat.eqb_eq in F2. apply count_one in F2 as (z & -> & _); auto.
      rewrite removelast_app by easy. cbn. rewrite app_nil_r. apply valid_cut in Vr; [tauto|left; lia].
    - eapply cut_valid; eauto. lia. }
  destruct Hq as [V1 V2]. pose proof (lower_valid _ Vs) as V3. pose proof (small_valid _ V1) as Sr.
  assert (Sn : small []) by (intros c []).
  destruct (negb (has_prefix [47] r) && negb (is_empty (to_lower sch))); [intros [= <-]; now constructor|].
  destruct (negb (has_prefix [47] r) && contains_byte 58 (fst (cut 47 r))); [discriminate|].
  destruct ((negb (is_empty (to_lower sch)) || negb (has_prefix (b "///") r)) && has_prefix (b "//") r).
  - destruct (match cut_at 47 (skipn 2 r) with Some (x, y) => (x, 47 :: y) | None => (skipn 2 r, []) end) as [au pa] eqn:Ca.
    assert (S2 : small (skipn 2 r)) by (intros c I; apply Sr; now apply skipn_In in I).
    assert (Sap : small au /\ small pa).
    { destruct (cut_at 47 (skipn 2 r)) as [[x y]|] eqn:K; injection Ca as <- <-; [|split; auto]. apply cut_at_eq in K as [K _]. rewrite K in S2.
      split; intros c I; [apply S2; apply in_app_iff; now left|]. destruct I as [<-|I]; [lia|]. apply S2. apply in_app_iff. right. now right. }
    destruct (parse_authority au) as [[us ho]|] eqn:PA; [|discriminate]. apply authority_small in PA as [P1 P2]; [|tauto].
    intros H. eapply set_path_fine; eauto; [tauto|]. now constructor.
  - intros H. eapply set_path_fine; eauto. now constructor.
Qed.
Lemma url_parse_fine raw u : valid raw -> url_parse raw = Some u -> fine u.
Proof.
  intros V. unfold url_parse. destruct (cut 35 raw) as [r f] eqn:C. apply cut_valid in C as [Vr Vf]; auto; [|lia]. destruct (parse_no_fragment r) as [x|] eqn:E; [|discriminate].
  apply parse_fine in E; auto. destruct (is_empty f); [now intros [= <-]|]. intros H. eapply set_fragment_fine; eauto. now apply small_valid.
Qed.
Lemma base_fine domain base : valid domain -> parse_base_domain go_url domain = Some base -> fine base.
Proof.
  intros V. unfold parse_base_domain, parse_with_host. cbn [op_parse op_host go_url url_t].
  assert (V2 : valid (b "http://" ++ domain)) by (apply valid_app; auto; reflexivity).
  destruct (is_empty domain); [discriminate|].
  assert (K : (match url_parse (b "http://" ++ domain) with Some u => if is_empty (u_host u) then None else Some u | None => None end) = Some base -> fine base).
  { destruct (url_parse (b "http://" ++ domain)) as [v|] eqn:F; [|discriminate]. destruct (is_empty (u_host v)); [discriminate|]. intros [= <-]. now apply url_parse_fine in F. }
  destruct (url_parse domain) as [u|] eqn:E; auto. destruct (is_empty (u_host u)); auto. intros [= <-]. now apply url_parse_fine in E.
Qed.
Lemma or_same_fine p u : small p -> fine u -> fine (or_same (set_path p u) u).
Proof. intros S F. destruct (set_path p u) eqn:E; [|exact F]. eapply set_path_fine; eauto. Qed.
Lemma resolve_step_small st e : small (fst st) -> small e -> small (fst (resolve_step st e)).
Proof.
  destruct st as [str first]. cbn [fst]. intros A B. unfold resolve_step. destruct (beqb e [46]); auto. destruct (beqb e [46; 46]).
  - destruct (cut_last 47 str) as [[x y]|] eqn:C; [|intros c []]. apply cut_last_sub in C as [C _]. exact (small_sub _ _ A C).
  - cbn [fst]. apply small_app; auto. destruct first; auto. apply small_app; auto. intros c [<-|[]]. lia.
Qed.
Lemma resolve_path_small base ref : small base -> small ref -> small (resolve_path base ref).
Proof.
  intros A B. unfold resolve_path. cbv zeta.
  set (full := if is_empty ref then base else _).
  assert (F : small full).
  { unfold full. destruct (is_empty ref); auto. destruct (negb (has_prefix [47] ref)); auto. apply small_app; auto.
    destruct (cut_last 47 base) as [[x y]|] eqn:C; [|intros c []]. apply cut_last_sub in C as [C _]. apply small_app; [exact (small_sub _ _ A C)|intros c [<-|[]]; lia]. }
  clearbody full. destruct (is_empty full); [intros c []|].
  assert (E : small (fst (fold_left resolve_step (split_on 47 full) ([], true)))).
  { assert (G : forall l st, small (fst st) -> (forall e, In e l -> small e) -> small (fst (fold_left resolve_step l st))).
    { induction l as [|e l IH]; intros st S H; auto. change (fold_left resolve_step (e :: l) st) with (fold_left resolve_step l (resolve_step st e)). apply IH; [apply resolve_step_small; auto; apply H; now left|intros; apply H; now right]. }
    apply G; [intros c []|]. intros e I c J. apply F. eapply split_sub; eauto. }
  set (r := [47] ++ _). assert (R : small r).
  { unfold r. apply small_app; [intros c [<-|[]]; lia|]. apply small_app; auto. destruct (_ || _); [intros c [<-|[]]; lia|intros c []]. }
  clearbody r. destruct (has_prefix [47; 47] r); auto. intros c I. apply R. destruct r; [destruct I|now right].
Qed.
Lemma resolve_fine base u : fine base -> fine u -> fine (resolve_reference base u).
Proof.
  intros Fb Fu. assert (P1 : small (escaped_path u)) by (apply ascii_small, part_ascii, Fu). assert (P2 : small (escaped_path base)) by (apply ascii_small, part_ascii, Fb).
  assert (Sn : small []) by (intros c []).
  destruct Fb, Fu. unfold resolve_reference. cbv zeta.
  destruct (negb (is_empty (u_scheme u)) || negb (is_empty (u_host u)) || is_some (u_user u)).
  - apply or_same_fine; [now apply resolve_path_small|]. constructor; cbn; auto. now destruct (is_empty (u_scheme u)).
  - destruct (negb (is_empty (u_opaque u))).
    + constructor; cbn; auto. now destruct (is_empty (u_scheme u)).
    + apply or_same_fine; [now apply resolve_path_small|]. constructor; cbn; auto; [now destruct (is_empty (u_scheme u))|now destruct (is_empty (u_path u) && _ && _)|].
      destruct (_ && is_empty (u_fragment u)); auto.
Qed.
Lemma dae_valid s : valid s -> valid (decode_and_encode go_url s).
Proof.
  intros V. unfold decode_and_encode. cbn [op_query_unescape op_query_escape go_url]. unfold query_unescape, query_escape. destruct (url_unescape EncQuery s) as [t|] eqn:E; auto.
  apply valid_ascii. apply escape_ascii. eapply unescape_small; eauto. now apply small_valid.
Qed.
Lemma query_valid q : valid q -> valid (replace_all [43] (b "%20") (parse_and_encode_query go_url q)).
Proof.
  intros V. apply valid_swap; [lia|reflexivity|]. unfold parse_and_encode_query. destruct (is_empty q); [apply valid_nil|]. apply valid_join; [reflexivity|].
  apply Forall_map. pose proof (valid_split 38 q ltac:(lia) V) as F. eapply Forall_impl; [|exact F]. intros p Vp. unfold encode_part. cbv beta.
  destruct (cut_at 61 p) as [[k v]|] eqn:C; [|now apply dae_valid]. apply cut_at_valid in C as [A B]; auto; [|lia].
  destruct (is_empty v); repeat apply valid_app; try apply dae_valid; auto; reflexivity.
Qed.
Lemma percent_valid s : valid s -> valid (percent_replace s).
Proof.
  apply valid_edits. unfold percent_replace. induction s as [|c s IH]; [constructor|]. cbn [flat_map]. destruct (percent_byte_ok c) as [H|H]; [|rewrite H; now constructor].
  apply ed_sub; auto; [lia|]. destruct H as [->|[->|[->|[->|[->|[->| ->]]]]]]; reflexivity.
Qed.
Lemma prepared_valid raw : valid raw -> valid (prepared_raw raw).
Proof. intros V. unfold prepared_raw. apply valid_swap; [unfold cTAB; lia|reflexivity|]. apply valid_swap; [unfold cNL; lia|reflexivity|]. now apply valid_trim. Qed.
Lemma assemble_valid domain raw : valid domain -> valid raw -> valid (assemble_absolute_url go_url domain raw).
Proof.
  intros Vd Vr. rewrite assemble_eq. pose proof (prepared_valid raw Vr) as Vp. destruct (beqb (trim_space raw) [35]); [now apply valid_trim|].
  cbn [op_parse go_url]. destruct (url_parse (prepared_raw raw)) as [u|] eqn:P; [|now apply percent_valid]. destruct (beqb _ (b "data")); [now apply percent_valid|].
  cbv zeta. apply percent_valid. change (op_string go_url) with url_string. apply string_valid. pose proof (url_parse_fine _ _ Vp P) as F.
  set (u' := op_set_query go_url _ u).
  assert (F' : fine u'). { unfold u'. destruct F. constructor; cbn; auto. now apply query_valid. }
  clearbody u'. destruct (parse_base_domain go_url domain) as [base|] eqn:B; auto. change (op_resolve go_url) with resolve_reference. apply resolve_fine; auto. now apply base_fine in B.
Qed.
Lemma assemble_utf8 domain raw : utf8 domain -> utf8 raw -> utf8 (assemble_absolute_url go_url domain raw).
Proof. rewrite !utf8_iff. apply assemble_valid. Qed.
