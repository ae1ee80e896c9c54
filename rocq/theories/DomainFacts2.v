(** Facts for C65: parsing and writing addresses. *)
From Coq Require Import List NArith ZArith Bool String Lia ZifyBool ZifyNat ZifyN.
From Verif Require Import Bytes BytesFacts NetUrl Url SpecUrl SpecDomain UrlFacts UrlFacts2 DomainFacts.
Import ListNotations.
Open Scope N_scope.
Open Scope list_scope.

Lemma unreserved_cases c : unreserved c = true -> (is_letter c || is_digit c) = true \/ byte_in (b "-_.~") c = true.
Proof. unfold unreserved, is_letter, is_digit, in_range, byte_in. cbn. intros H. lia. Qed.
Lemma unreserved_not c : unreserved c = true -> 33 <= c < 127 /\ c <> 35 /\ c <> 37 /\ c <> 42 /\ c <> 43 /\ c <> 47 /\ c <> 58 /\ c <> 63 /\ c <> 64 /\ c <> 91 /\ c <> 93 /\ c <> 40 /\ c <> 41 /\ c <> 60 /\ c <> 62.
Proof. unfold unreserved. cbn. intros H. lia. Qed.
Lemma no_escape c m : unreserved c = true -> should_escape m c = false.
Proof.
  intros H. unfold should_escape. destruct (is_letter c || is_digit c) eqn:A; auto.
  destruct (_ && _); auto. destruct (unreserved_cases c H) as [Q|Q]; [congruence|]. now rewrite Q.
Qed.
Lemma escape_same m s : (forall c, In c s -> should_escape m c = false) -> url_escape m s = s.
Proof.
  unfold url_escape. induction s as [|c s IH]; intros H; auto. cbn [flat_map]. unfold escape_byte at 1. rewrite H by now left. cbn [app]. f_equal. apply IH. intros; apply H; now right.
Qed.
Lemma unescape_same m s : (forall c, In c s -> c <> 37 /\ c <> 43 /\ should_escape m c = false) -> url_unescape m s = Some s.
Proof.
  induction s as [|c s IH]; intros H; auto. destruct (H c (or_introl eq_refl)) as (A & A2 & A3). cbn [url_unescape].
  replace (c =? 37) with false by lia. replace (c =? 43) with false by lia. cbn [andb]. rewrite A3.
  assert (E : (match m with EncHost | EncZone => (c <? 128) && false | _ => false end) = false) by (destruct m; auto; apply andb_false_r). rewrite E.
  rewrite IH by (intros; apply H; now right). reflexivity.
Qed.
Definition path_char (c : N) : Prop := unreserved c = true \/ c = 47.
Lemma path_escape p : (forall c, In c p -> path_char c) -> url_escape EncPath p = p /\ url_unescape EncPath p = Some p.
Proof.
  intros H. assert (S : forall c, In c p -> should_escape EncPath c = false) by (intros c I; destruct (H c I) as [U| ->]; [now apply no_escape|reflexivity]).
  split; [now apply escape_same|apply unescape_same]. intros c I. split; [|split; [|auto]]; destruct (H c I) as [U| ->]; try discriminate; apply unreserved_not in U; lia.
Qed.
Lemma simple_chars p : simple_path p = true -> (forall c, In c p -> path_char c) /\ no_double_slash p = true.
Proof.
  unfold simple_path. intros H. apply andb_true_iff in H as [A B]. split; auto. intros c I. rewrite forallb_forall in A. apply A in I. unfold path_char. destruct (unreserved c); auto. right. lia.
Qed.
Lemma host_chars h : simple_host h -> h <> [] /\ (forall c, In c h -> unreserved c = true \/ c = 58).
Proof.
  intros (n & p & -> & N & A & B). split; [destruct n; easy|]. intros c I. apply in_app_iff in I as [I|I].
  - left. rewrite forallb_forall in A. auto.
  - destruct B as [-> | (ds & -> & D)]; [destruct I|]. destruct I as [<-|I]; auto. left. rewrite forallb_forall in D. apply D in I. unfold unreserved. lia.
Qed.
Lemma host_escape h : simple_host h -> url_escape EncHost h = h /\ url_unescape EncHost h = Some h.
Proof.
  intros H. apply host_chars in H as [_ H]. assert (S : forall c, In c h -> should_escape EncHost c = false) by (intros c I; destruct (H c I) as [U| ->]; [now apply no_escape|reflexivity]).
  split; [now apply escape_same|apply unescape_same]. intros c I. split; [|split; [|auto]]; destruct (H c I) as [U| ->]; try discriminate; apply unreserved_not in U; lia.
Qed.
Lemma host_parsed h : simple_host h -> parse_authority h = Some (None, h).
Proof.
  intros S. pose proof (host_chars h S) as [N H]. pose proof (host_escape h S) as [_ U].
  assert (N64 : ~ In 64 h) by (intros I; apply H in I as [I|I]; [apply unreserved_not in I|]; lia).
  unfold parse_authority. rewrite cut_last_none by auto. unfold parse_host.
  assert (E : has_prefix (b "[") h = false).
  { destruct h as [|c h]; [easy|]. destruct (H c (or_introl eq_refl)) as [Q|Q]; [apply unreserved_not in Q|]; change ((91 =? c) && true = false); lia. }
  rewrite E, U. destruct S as (n & p & -> & Nn & A & B).
  assert (N58 : ~ In 58 n) by (intros I; rewrite forallb_forall in A; apply A in I; apply unreserved_not in I; lia).
  destruct B as [-> | (ds & -> & D)].
  - rewrite app_nil_r, cut_last_none by auto. reflexivity.
  - rewrite cut_last_snoc by (intros I; rewrite forallb_forall in D; apply D in I; lia). cbn [valid_port]. change (58 =? 58) with true. cbn [andb].
    assert (D2 : forallb is_digit ds = true) by exact D. now rewrite D2.
Qed.
(** the query *)
Definition query_part (q : bytes) : Prop := match q with [] => True | c :: _ => c = 63 end.
Lemma count_pos c s : In c s -> (1 <= count_byte c s)%nat.
Proof. induction s as [|d s IH]; [intros []|]. cbn [count_byte]. intros [-> | I]; [rewrite N.eqb_refl; lia|]. apply IH in I. destruct (_ =? _); lia. Qed.
Lemma count_app c x y : count_byte c (x ++ y) = (count_byte c x + count_byte c y)%nat.
Proof. induction x as [|d x IH]; auto. cbn [app count_byte]. rewrite IH. destruct (_ =? _); reflexivity. Qed.
Lemma query_cut body q : ~ In 63 body -> query_part q ->
  exists force query, (has_suffix [63] (body ++ q) && Nat.eqb (count_byte 63 (body ++ q)) 1) = force /\
   (if force then (removelast (body ++ q), []) else cut 63 (body ++ q)) = (body, query).
Proof.
  intros N Q. destruct (has_suffix [63] (body ++ q) && Nat.eqb (count_byte 63 (body ++ q)) 1) eqn:F; [exists true, []|exists false, (snd (cut 63 (body ++ q)))]; (split; [reflexivity|]).
  - apply andb_true_iff in F as [F1 F2]. apply Nat.eqb_eq in F2. apply count_one in F2 as (r & E & Nr); auto.
    destruct q as [|c q]; [exfalso; rewrite app_nil_r in E; apply N; rewrite E; apply in_app_iff; right; now left|]. cbn in Q. subst c.
    destruct q as [|d q] using rev_ind.
    + rewrite removelast_app by easy. cbn. now rewrite app_nil_r.
    + exfalso. rewrite app_comm_cons, app_assoc in E. apply app_inj_tail in E as [E _]. apply Nr. rewrite <- E. apply in_app_iff. right. now left.
  - unfold cut. destruct q as [|c q].
    + rewrite app_nil_r. destruct (cut_at 63 body) as [[x y]|] eqn:E; [|reflexivity]. apply cut_at_eq in E as [-> _]. elim N. apply in_app_iff. right. now left.
    + cbn in Q. subst c. assert (E : forall u v, ~ In 63 u -> cut_at 63 (u ++ 63 :: v) = Some (u, v)).
      { induction u as [|c u IH]; intros v M; cbn [app cut_at]; [reflexivity|]. destruct (c =? 63) eqn:Z; [elim M; left; lia|]. rewrite IH; auto. intros J. apply M. now right. }
      rewrite E by auto. reflexivity.
Qed.
(** schemes *)
Lemma scheme_none rp q : (forall c, In c rp -> path_char c) -> query_part q -> forall i, scheme_len i (rp ++ q) = Some None.
Proof.
  intros H Q. induction rp as [|c rp IH]; intros i.
  - destruct q as [|c q]; [reflexivity|]. cbn in Q. subst c. reflexivity.
  - assert (H2 : forall c, In c rp -> path_char c) by (intros; apply H; now right). cbn [app scheme_len].
    destruct (is_letter c) eqn:A; [now apply IH|]. destruct (is_digit c || byte_in (b "+-.") c); [destruct i; auto|].
    destruct (H c (or_introl eq_refl)) as [U| ->]; [|reflexivity]. apply unreserved_not in U. replace (c =? 58) with false by lia. reflexivity.
Qed.
Lemma scheme_some sc rest : simple_scheme sc = true -> get_scheme (sc ++ 58 :: rest) = Some (sc, rest).
Proof.
  intros S. unfold get_scheme. destruct sc as [|c t]; [discriminate|]. cbn [simple_scheme] in S. apply andb_true_iff in S as [S1 S2].
  assert (L : scheme_len 0 ((c :: t) ++ 58 :: rest) = Some (Some (S (List.length t)))).
  { cbn [app scheme_len]. replace (is_letter c) with true by (unfold letter, is_letter, in_range in *; lia).
    assert (G : forall i, (1 <= i)%nat -> scheme_len i (t ++ 58 :: rest) = Some (Some (i + List.length t)%nat)).
    { clear - S2. induction t as [|d t IH]; intros i Li; cbn [app].
      - cbn. destruct i; [lia|]. now rewrite Nat.add_0_r.
      - cbn [forallb] in S2. apply andb_true_iff in S2 as [D1 D2]. cbn [scheme_len List.length]. destruct (is_letter d) eqn:A.
        + rewrite IH by (auto; lia). f_equal. f_equal. lia.
        + replace (is_digit d || byte_in (b "+-.") d) with true by (unfold is_letter, is_digit, in_range, byte_in, letter in *; cbn in *; lia).
          destruct i; [lia|]. rewrite IH by (auto; lia). f_equal. f_equal. lia. }
    rewrite G by lia. reflexivity. }
  rewrite L. cbn [firstn skipn app]. f_equal. f_equal.
  - f_equal. rewrite firstn_app, Nat.sub_diag, firstn_all. cbn. apply app_nil_r.
  - clear. induction t as [|d t IH]; auto.
Qed.
Lemma scheme_chars sc : simple_scheme sc = true -> sc <> [] /\ (forall c, In c sc -> 33 <= c < 127 /\ c <> 35 /\ c <> 63 /\ c <> 42 /\ c <> 58 /\ c <> 47 /\ c <> 91 /\ c <> 93 /\ c <> 40 /\ c <> 41 /\ c <> 60 /\ c <> 62 ).
Proof.
  destruct sc as [|c t]; [discriminate|]. cbn [simple_scheme]. intros S. apply andb_true_iff in S as [S1 S2]. rewrite forallb_forall in S2. split; [easy|].
  intros d [<-|I]; [unfold letter in S1; lia|]. apply S2 in I. unfold letter in I. cbn in I. lia.
Qed.
Lemma lower_lowered s : to_lower s = lowered s.
Proof. reflexivity. Qed.
(** Parsing the part before the fragment *)
Record shape (u : url) (sc h p : bytes) : Prop := {
  sh_scheme : u_scheme u = sc; sh_opaque : u_opaque u = []; sh_user : u_user u = None; sh_host : u_host u = h; sh_path : u_path u = p; sh_raw : u_raw_path u = [] }.
Lemma set_path_shape u sc h p0 p : shape u sc h p0 -> (forall c, In c p -> path_char c) -> exists u', set_path p u = Some u' /\ shape u' sc h p
  /\ u_omit_host u' = u_omit_host u /\ u_force_query u' = u_force_query u /\ u_raw_query u' = u_raw_query u /\ u_fragment u' = u_fragment u /\ u_raw_fragment u' = u_raw_fragment u.
Proof.
  intros [] H. unfold set_path. destruct (path_escape p H) as [E1 E2]. rewrite E2, E1. rewrite beqb_refl. eexists. split; [reflexivity|]. cbn. split; [constructor; auto|auto 10].
Qed.
Lemma parse_relative rp q : simple_path rp = true -> query_part q -> existsb is_ctl (rp ++ q) = false -> exists u, parse_no_fragment (rp ++ q) = Some u /\ shape u [] [] rp /\ u_fragment u = [] /\ u_raw_fragment u = [].
Proof.
  intros S Q Ct. destruct (simple_chars rp S) as [H D]. unfold parse_no_fragment. rewrite Ct.
  destruct (beqb (rp ++ q) (b "*")) eqn:E.
  { apply beqb_eq in E. exfalso. destruct rp as [|c rp]; [cbn in E; subst q; discriminate|]. injection E as -> _. destruct (H 42 (or_introl eq_refl)) as [U|U]; [discriminate U|discriminate]. }
  unfold get_scheme. rewrite scheme_none by auto. cbv iota beta. change (to_lower []) with (@nil N). cbv zeta.
  assert (N63 : ~ In 63 rp) by (intros I; destruct (H _ I) as [U|U]; [discriminate U|discriminate]).
  destruct (query_cut rp q N63 Q) as (force & query & Ef & Ec). rewrite Ef, Ec. cbn [is_empty negb andb].
  rewrite andb_false_r. cbn [negb]. 
  assert (N58 : contains_byte 58 (fst (cut 47 rp)) = false).
  { clear Ct. unfold contains_byte. destruct (existsb _ _) eqn:X; auto. apply existsb_exists in X as (z & Iz & Ez). assert (z = 58) by lia. subst z.
    unfold cut in Iz. destruct (cut_at 47 rp) as [[x y]|] eqn:C.
    - apply cut_at_eq in C as [-> _]. cbn [fst] in Iz. destruct (H 58) as [U|U]; [apply in_app_iff; now left|discriminate U|discriminate].
    - destruct (H 58) as [U|U]; [exact Iz|discriminate U|discriminate]. }
  rewrite N58, andb_false_r.
  assert (P : has_prefix (b "//") rp = false).
  { destruct rp as [|c [|d rp]]; auto; [cbn; now rewrite andb_false_r|]. cbn [no_double_slash] in D. apply andb_true_iff in D as [D _]. change ((47 =? c) && ((47 =? d) && true) = false). lia. }
  rewrite P, andb_false_r. match goal with |- exists u, set_path rp ?v = _ /\ _ => destruct (set_path_shape v [] [] [] rp) as (u & E1 & E2 & E3 & E4 & E5 & E6 & E7) end; [constructor; reflexivity|auto|].
  exists u. split; auto.
Qed.
Lemma rooted_cut h rp : ~ In 47 h -> from_root rp = true ->
  (match cut_at 47 (h ++ rp) with Some (x, y) => (x, 47 :: y) | None => (h ++ rp, []) end) = (h, rp).
Proof.
  intros N F. destruct rp as [|c rp].
  - rewrite app_nil_r. destruct (cut_at 47 h) as [[x y]|] eqn:E; auto. apply cut_at_eq in E as [-> _]. elim N. apply in_app_iff. right. now left.
  - cbn in F. assert (c = 47) by lia. subst c. clear F. induction h as [|d h IH]; [reflexivity|]. cbn [app cut_at].
    destruct (d =? 47) eqn:Z; [elim N; left; lia|]. assert (M : ~ In 47 h) by (intros J; apply N; now right). apply IH in M.
    destruct (cut_at 47 (h ++ 47 :: rp)) as [[x y]|]; cbn [option_map]; congruence.
Qed.
Lemma parse_full s rest h rp q : get_scheme rest = Some (s, b "//" ++ h ++ rp ++ q) -> beqb rest (b "*") = false -> simple_host h -> simple_path rp = true -> from_root rp = true -> query_part q -> existsb is_ctl rest = false ->
  exists u, parse_no_fragment rest = Some u /\ shape u (lowered s) h rp /\ u_omit_host u = false /\ u_fragment u = [] /\ u_raw_fragment u = [].
Proof.
  intros G St Sh Sp F Q Ct. destruct (simple_chars rp Sp) as [H _]. destruct (host_chars h Sh) as [Nh Hh]. unfold parse_no_fragment.
  rewrite Ct, St, G. cbv zeta.
  assert (N63 : ~ In 63 (b "//" ++ h ++ rp)).
  { intros I. apply in_app_iff in I as [I|I]; [cbn in I; lia|]. apply in_app_iff in I as [I|I]; [apply Hh in I as [I|I]|apply H in I as [I|I]]; try discriminate; apply unreserved_not in I; lia. }
  destruct (query_cut (b "//" ++ h ++ rp) q N63 Q) as (force & query & Ef & Ec).
  replace (b "//" ++ h ++ rp ++ q) with ((b "//" ++ h ++ rp) ++ q) by now rewrite <- !app_assoc.
  rewrite Ef, Ec. change (b "//" ++ h ++ rp) with (47 :: 47 :: h ++ rp).
  change (has_prefix [47] (47 :: 47 :: h ++ rp)) with true. cbn [negb andb]. change (has_prefix (b "//") (47 :: 47 :: h ++ rp)) with true.
  assert (P3 : has_prefix (b "///") (47 :: 47 :: h ++ rp) = false).
  { destruct h as [|c h]; [easy|]. change ((47 =? c) && true = false). destruct (Hh c (or_introl eq_refl)) as [I|I]; [apply unreserved_not in I|]; lia. }
  rewrite P3. cbn [negb]. rewrite orb_true_r. cbn [andb skipn].
  rewrite rooted_cut; [|intros I; apply Hh in I as [I|I]; [apply unreserved_not in I|]; lia|auto].
  rewrite host_parsed by auto. match goal with |- exists u, set_path rp ?v = _ /\ _ => destruct (set_path_shape v (lowered s) h [] rp) as (u & E1 & E2 & E3 & E4 & E5 & E6 & E7) end; [constructor; reflexivity|auto|].
  exists u. split; auto.
Qed.
Lemma unhex_hexit c : hexit c = true -> exists v, unhex c = Some v.
Proof. unfold hexit, unhex, is_digit, in_range. intros H. destruct ((48 <=? c) && (c <=? 57)); [eauto|]. destruct ((97 <=? c) && (c <=? 102)) eqn:E; [eauto|]. destruct ((65 <=? c) && (c <=? 70)) eqn:E2; [eauto|]. cbn in H. lia. Qed.
Lemma fragment_unescape s : percents_ok s = true -> exists v, url_unescape EncFragment s = Some v.
Proof.
  assert (G : forall n s, (List.length s <= n)%nat -> percents_ok s = true -> exists v, url_unescape EncFragment s = Some v).
  { clear. induction n as [|n IH]; intros s L H; [destruct s; [now exists []|cbn in L; lia]|]. destruct s as [|c t]; [now exists []|].
    cbn [percents_ok] in H. apply andb_true_iff in H as [H1 H2]. cbn [List.length] in L. cbn [url_unescape]. rewrite andb_false_r. destruct (c =? 37).
    - destruct t as [|x [|y r]]; try discriminate. apply andb_true_iff in H1 as [X Y]. apply unhex_hexit in X as (vx & ->). apply unhex_hexit in Y as (vy & ->).
      cbn [percents_ok] in H2. apply andb_true_iff in H2 as [_ H2]. apply andb_true_iff in H2 as [_ H2]. destruct (IH r) as (v & ->); [cbn [List.length] in L; lia|auto|]. now eexists.
    - destruct (IH t) as (v & ->); [lia|auto|]. now eexists. }
  now apply (G (List.length s)).
Qed.
Lemma percents_suffix x y : percents_ok (x ++ y) = true -> percents_ok y = true.
Proof. induction x as [|c x IH]; auto. cbn [app percents_ok]. intros H. apply andb_true_iff in H as [_ H]. auto. Qed.
Lemma url_parse_split x t : ~ In 35 x -> good_tail t -> exists q, query_part q /\ (forall c, In c q -> In c t) /\
  forall v, parse_no_fragment (x ++ q) = Some v -> exists u, url_parse (x ++ t) = Some u /\ u_scheme u = u_scheme v /\ u_opaque u = u_opaque v /\ u_user u = u_user v /\ u_host u = u_host v
    /\ u_path u = u_path v /\ u_raw_path u = u_raw_path v /\ u_omit_host u = u_omit_host v /\ (t = [] -> u = v).
Proof.
  intros N (T & _ & PO). unfold url_parse.
  assert (C : exists q f, query_part q /\ (forall c, In c q -> In c t) /\ cut 35 (x ++ t) = (x ++ q, f) /\ percents_ok f = true /\ (t = [] -> f = [])).
  { unfold cut. assert (B : forall z, ~ In 35 z -> cut_at 35 (z ++ t) = match cut_at 35 t with Some (a, c) => Some (z ++ a, c) | None => None end).
    { induction z as [|c z IH]; intros M; cbn [app]; [destruct (cut_at 35 t) as [[? ?]|]; reflexivity|]. cbn [cut_at]. destruct (c =? 35) eqn:Z; [elim M; left; lia|].
      rewrite IH by (intros J; apply M; now right). destruct (cut_at 35 t) as [[? ?]|]; reflexivity. }
    rewrite B by auto. destruct (cut_at 35 t) as [[a f]|] eqn:E.
    - exists a, f. apply cut_at_eq in E as [-> Na]. split; [|split; [intros; apply in_app_iff; now left|split; [reflexivity|split; [|intros E; destruct a; discriminate]]]].
      + destruct a as [|c a]; cbn in *; auto. destruct T as [T|T]; auto. subst c. elim Na. now left.
      + apply percents_suffix in PO. now apply (percents_suffix [35]).
    - exists t, []. split; [|auto 10]. destruct t as [|c t]; cbn in *; auto. destruct T as [T|T]; auto. subst c. discriminate. }
  destruct C as (q & f & Q & Qt & -> & Pf & Fe). exists q. split; auto. split; auto. intros v ->.
  destruct f as [|c f]; [exists v; auto 10|]. cbn [is_empty]. unfold set_fragment. destruct (fragment_unescape _ Pf) as (w & ->). eexists. split; [reflexivity|]. cbn.
  repeat (split; [reflexivity|]). intros E. apply Fe in E. discriminate.
Qed.
Lemma shape_move u v sc h p : shape v sc h p -> u_scheme u = u_scheme v -> u_opaque u = u_opaque v -> u_user u = u_user v -> u_host u = u_host v -> u_path u = u_path v -> u_raw_path u = u_raw_path v -> shape u sc h p.
Proof. intros [] ? ? ? ? ? ?. constructor; congruence. Qed.
Lemma no_ctl s : (forall c, In c s -> 33 <= c < 127) -> existsb is_ctl s = false.
Proof. intros H. apply not_true_is_false. intros X. apply existsb_exists in X as (c & I & E). apply H in I. unfold is_ctl in E. lia. Qed.
Lemma path_visible p : (forall c, In c p -> path_char c) -> forall c, In c p -> 33 <= c < 127.
Proof. intros H c I. apply H in I as [I|I]; [apply unreserved_not in I|]; lia. Qed.
Lemma host_visible h : simple_host h -> forall c, In c h -> 33 <= c < 127.
Proof. intros S c I. apply host_chars in S as [_ S]. apply S in I as [I|I]; [apply unreserved_not in I|]; lia. Qed.
Lemma relative_parsed rp t : simple_path rp = true -> good_tail t -> exists u, url_parse (rp ++ t) = Some u /\ shape u [] [] rp.
Proof.
  intros S T. destruct (simple_chars rp S) as [H _]. destruct (url_parse_split rp t) as (q & Q & Qt & F); auto.
  - intros I. apply H in I as [I|I]; [discriminate I|discriminate].
  - destruct (parse_relative rp q) as (v & P & Sv & _); auto.
    + apply no_ctl. intros c I. apply in_app_iff in I as [I|I]; [now apply (path_visible rp)|]. destruct T as (_ & T & _). auto.
    + destruct (F v P) as (u & Eu & ?). exists u. split; auto. destruct H0 as (? & ? & ? & ? & ? & ? & _). eapply shape_move; eauto.
Qed.
Lemma schemeless r : get_scheme (47 :: r) = Some ([], 47 :: r).
Proof. reflexivity. Qed.
Lemma not_star_slash h : beqb (47 :: h) (b "*") = false.
Proof. reflexivity. Qed.
Lemma full_parsed pre s h rp t : (pre = [] /\ s = [] \/ simple_scheme s = true /\ pre = s ++ [58]) -> simple_host h -> simple_path rp = true -> from_root rp = true -> good_tail t ->
  exists u, url_parse (pre ++ b "//" ++ h ++ rp ++ t) = Some u /\ shape u (lowered s) h rp /\ u_omit_host u = false /\ (t = [] -> u_fragment u = [] /\ u_raw_fragment u = []).
Proof.
  intros S Sh Sp F T. destruct (simple_chars rp Sp) as [H _]. pose proof (host_chars h Sh) as [_ Hh].
  assert (Vis : forall c, In c (pre ++ b "//" ++ h ++ rp) -> 33 <= c < 127 /\ c <> 35).
  { intros c I. apply in_app_iff in I as [I|I].
    + destruct S as [[-> ->]|[S ->]]; [destruct I|]. apply in_app_iff in I as [I|I]; [apply scheme_chars in S as [_ S]; apply S in I; lia|destruct I as [<-|[]]; lia].
    + apply in_app_iff in I as [I|I]; [cbn in I; lia|]. apply in_app_iff in I as [I|I]; [apply Hh in I as [I|I]|apply H in I as [I|I]]; try lia; apply unreserved_not in I; lia. }
  replace (pre ++ b "//" ++ h ++ rp ++ t) with ((pre ++ b "//" ++ h ++ rp) ++ t) by now rewrite <- !app_assoc.
  destruct (url_parse_split (pre ++ b "//" ++ h ++ rp) t) as (q & Q & Qt & FF); auto.
  { intros I. apply Vis in I. lia. }
  assert (As : (pre ++ b "//" ++ h ++ rp) ++ q = pre ++ b "//" ++ h ++ rp ++ q) by now rewrite <- !app_assoc.
  destruct (parse_full s (pre ++ b "//" ++ h ++ rp ++ q) h rp q) as (v & P & Sv & O & F1 & F2); auto.
  - destruct S as [[-> ->]|[S ->]]; [reflexivity|]. rewrite <- app_assoc. now apply scheme_some.
  - destruct S as [[-> ->]|[S ->]]; [reflexivity|]. destruct s as [|c s]; [discriminate|]. cbn [app b]. apply not_true_is_false. intros X. apply beqb_eq in X. injection X as _ X. destruct s; discriminate.
  - rewrite <- As. apply no_ctl. intros c I. apply in_app_iff in I as [I|I]; [apply Vis in I; lia|]. apply Qt in I. destruct T as (_ & T & _). auto.
  - rewrite <- As in P. destruct (FF v P) as (u & Eu & ? & ? & ? & ? & ? & ? & ? & Ez). exists u. split; auto. split; [eapply shape_move; eauto|]. split; [congruence|]. intros ->. rewrite Ez by auto. auto.
Qed.
(** Without two slashes there is no host *)
Lemma no_host raw v : no_double_slash raw = true -> parse_no_fragment raw = Some v -> u_host v = [].
Proof.
  intros D. unfold parse_no_fragment. destruct (existsb is_ctl raw); [discriminate|]. destruct (beqb raw (b "*")); [intros E; now injection E as <-|].
  destruct (get_scheme raw) as [[s rest]|] eqn:G; [|discriminate].
  assert (Dr : no_double_slash rest = true).
  { assert (Suf : forall x y, no_double_slash (x ++ y) = true -> no_double_slash y = true).
    { induction x as [|c x IH]; auto. cbn [app no_double_slash]. intros y X. apply andb_true_iff in X as [_ X]. auto. }
    unfold get_scheme in G. destruct (scheme_len 0 raw) as [[k|]|]; try discriminate; injection G as <- <-; auto.
    apply (Suf (firstn (S k) raw)). now rewrite firstn_skipn. }
  cbv zeta. destruct (_ && Nat.eqb _ 1) eqn:F.
  - assert (P : has_prefix (b "//") (removelast rest) = false).
    { destruct rest as [|c [|d [|e r]]]; try reflexivity; [cbn; now rewrite andb_false_r|]. cbn [removelast]. cbn [no_double_slash] in Dr. change ((47 =? c) && ((47 =? d) && true) = false). destruct r; lia. }
    clear F. rewrite P, andb_false_r. destruct (_ && _); [intros E; now injection E as <-|]. destruct (_ && _); [discriminate|]. unfold set_path. destruct (url_unescape _ _); [|discriminate]. intros E. now injection E as <-.
  - destruct (cut 63 rest) as [r q] eqn:C.
    assert (P : has_prefix (b "//") r = false).
    { assert (X : exists z, rest = r ++ z). { unfold cut in C. destruct (cut_at 63 rest) as [[x y]|] eqn:K; injection C as <- <-; [apply cut_at_eq in K as [-> _]; eauto|exists []; now rewrite app_nil_r]. }
      destruct X as (z & ->). destruct r as [|c [|d r]]; try reflexivity; [cbn; now rewrite andb_false_r|]. cbn [app no_double_slash] in Dr. change ((47 =? c) && ((47 =? d) && true) = false). lia. }
    clear F. rewrite P, andb_false_r. destruct (_ && _); [intros E; now injection E as <-|]. destruct (_ && _); [discriminate|]. unfold set_path. destruct (url_unescape _ _); [|discriminate]. intros E. now injection E as <-.
Qed.
Lemma nds_app h p : (forall c, In c h -> c <> 47) -> no_double_slash p = true -> no_double_slash (h ++ p) = true.
Proof.
  intros H P. induction h as [|c h IH]; auto. cbn [app no_double_slash]. rewrite IH by (intros; apply H; now right). specialize (H c (or_introl eq_refl)). replace (c =? 47) with false by lia. reflexivity.
Qed.
Lemma base_parsed domain sc h bp : domain_is domain sc h bp -> exists base, parse_base_domain go_url domain = Some base /\ shape base sc h bp /\ u_raw_query base = [] /\ u_fragment base = [] /\ u_raw_fragment base = [].
Proof.
  intros D. assert (K : forall s h bp, simple_scheme s = true -> simple_host h -> simple_path bp = true -> from_root bp = true ->
    exists base, parse_with_host go_url (s ++ b "://" ++ h ++ bp) = Some base /\ shape base (lowered s) h bp /\ u_raw_query base = [] /\ u_fragment base = [] /\ u_raw_fragment base = []).
  { clear. intros s h bp S Sh Sp F. destruct (full_parsed (s ++ [58]) s h bp []) as (u & P & Su & _ & Fr); auto; [repeat split; cbn; easy|].
    rewrite app_nil_r, <- app_assoc in P. change ([58] ++ b "//" ++ h ++ bp) with (b "://" ++ h ++ bp) in P.
    exists u. unfold parse_with_host. cbn [op_parse op_host go_url]. rewrite P. rewrite (sh_host _ _ _ _ Su). destruct (host_chars h Sh) as [N Hh]. destruct h as [|c0 h0] eqn:Eh; [easy|]. rewrite <- Eh in *. 
    assert (Em : is_empty h = false) by now subst h. rewrite Em. split; auto. split; auto. split; [|now apply Fr].
    apply url_parse_parted in P as [_ ->]. unfold query_of. destruct (simple_chars bp Sp) as [H _]. assert (V : forall c, In c (s ++ b "://" ++ h ++ bp) -> c <> 35 /\ c <> 63).
    { intros c I. apply in_app_iff in I as [I|I]; [apply scheme_chars in S as [_ S]; apply S in I; lia|].
      apply in_app_iff in I as [I|I]; [cbn in I; lia|]. apply in_app_iff in I as [I|I]; [apply Hh in I as [I|I]|apply H in I as [I|I]]; try lia; apply unreserved_not in I; lia. }
    rewrite before_none by (intros I; apply V in I; lia). apply after_none. intros I; apply V in I; lia. }
  destruct D as [s h bp S Sh Sp F|h bp Sh Sp F].
  - destruct (K s h bp) as (base & P & R); auto. exists base. split; auto. unfold parse_base_domain. rewrite P.
    destruct s; [discriminate|reflexivity].
  - destruct (K (b "http") h bp) as (base & P & R); auto. exists base. split; auto. unfold parse_base_domain. destruct (host_chars h Sh) as [N Hh]. destruct (simple_chars bp Sp) as [H ND].
    assert (Em : is_empty (h ++ bp) = false) by (destruct h; easy). rewrite Em.
    assert (W : parse_with_host go_url (h ++ bp) = None).
    { unfold parse_with_host. cbn [op_parse op_host go_url]. destruct (url_parse (h ++ bp)) as [u|] eqn:U; auto. unfold url_parse in U.
      assert (C : cut 35 (h ++ bp) = (h ++ bp, [])).
      { unfold cut. destruct (cut_at 35 (h ++ bp)) as [[x y]|] eqn:C; auto. apply cut_at_eq in C as [C _]. assert (I : In 35 (h ++ bp)) by (rewrite C; apply in_app_iff; right; now left).
        apply in_app_iff in I as [I|I]; [apply Hh in I as [I|I]|apply H in I as [I|I]]; try lia; apply unreserved_not in I; lia. }
      rewrite C in U. destruct (parse_no_fragment (h ++ bp)) as [v|] eqn:Pv; [|discriminate]. cbn [is_empty] in U. injection U as <-. rewrite (no_host (h ++ bp) v); auto.
      apply nds_app; auto. intros c I. apply Hh in I as [I|I]; [apply unreserved_not in I|]; lia. }
    rewrite W. exact P.
Qed.
