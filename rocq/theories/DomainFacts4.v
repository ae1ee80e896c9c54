(** Facts for C65: paths of any characters with a domain. *)
From Coq Require Import List NArith ZArith Bool String Lia ZifyBool ZifyNat ZifyN.
From Verif Require Import Bytes BytesFacts NetUrl Url SpecUrl UrlFacts UrlFacts2 SpecDomain DomainFacts DomainFacts2 DomainFacts3 SpecPath PathFacts.
Import ListNotations.
Open Scope N_scope.
Open Scope list_scope.

(** ** Percent triples and segments *)
Lemma percents_slash x y : percents_ok (x ++ 47 :: y) = percents_ok x && percents_ok y.
Proof.
  induction x as [|c x IH]; [reflexivity|]. cbn [app percents_ok]. rewrite IH, andb_assoc. f_equal. f_equal. destruct (c =? 37); [|reflexivity].
  destruct x as [|d [|e x]]; cbn [app]; [destruct y|..]; try reflexivity. change (hexit 47) with false. now rewrite andb_false_r.
Qed.
Lemma percents_join l : forallb percents_ok l = true -> percents_ok (join [47] l) = true.
Proof.
  induction l as [|x l IH]; [reflexivity|]. cbn [forallb]. intros H. apply andb_true_iff in H as [H1 H2]. destruct l as [|y l]; [exact H1|].
  change (join [47] (x :: y :: l)) with (x ++ 47 :: join [47] (y :: l)). now rewrite percents_slash, H1, IH.
Qed.
Lemma split_cons c p : split_on 47 (c :: p) = if c =? 47 then [] :: split_on 47 p else match split_on 47 p with x :: r => (c :: x) :: r | [] => [[c]] end.
Proof. reflexivity. Qed.
Lemma join_split p : join [47] (split_on 47 p) = p.
Proof.
  induction p as [|c p IH]; [reflexivity|]. rewrite split_cons. destruct (split_cons_ne p) as (x & r & E). rewrite E in *. destruct (c =? 47) eqn:Z.
  - assert (c = 47) by lia. subst c. change (join [47] ([] :: x :: r)) with (47 :: join [47] (x :: r)). now rewrite IH.
  - destruct r as [|y r]; [cbn in *; now subst|]. change (join [47] ((c :: x) :: y :: r)) with (c :: join [47] (x :: y :: r)). now rewrite IH.
Qed.
Lemma percents_join_back l : l <> [] -> percents_ok (join [47] l) = true -> forallb percents_ok l = true.
Proof.
  induction l as [|x l IH]; [easy|]. intros _ H. destruct l as [|y l]; [cbn in *; now rewrite H|].
  change (join [47] (x :: y :: l)) with (x ++ 47 :: join [47] (y :: l)) in H. rewrite percents_slash in H. apply andb_true_iff in H as [H1 H2].
  cbn [forallb] in *. rewrite H1. apply IH; easy.
Qed.
Lemma percents_split p : percents_ok p = true -> forallb percents_ok (split_on 47 p) = true.
Proof. intros H. apply percents_join_back; [destruct (split_cons_ne p) as (x & r & ->); easy|now rewrite join_split]. Qed.
Lemma walk_all (P : bytes -> bool) todo : P [] = true -> forall up, forallb P up = true -> forallb P todo = true -> forallb P (walk up todo) = true.
Proof.
  intros P0. assert (Rv : forall l, forallb P l = true -> forallb P (rev l) = true).
  { intros l H. apply forallb_forall. intros x I. apply in_rev in I. now apply (proj1 (forallb_forall P l) H). }
  assert (Tl : forall l, forallb P l = true -> forallb P (tl l) = true) by (intros [|x l] H; [reflexivity|]; cbn in H; now apply andb_true_iff in H).
  induction todo as [|s r IH]; intros up U T; cbn [walk]; auto. cbn [forallb] in T. apply andb_true_iff in T as [T1 T2].
  destruct (beqb s (b "..")); [|destruct (beqb s (b "."))].
  - destruct r; [apply Rv; cbn [forallb]; rewrite P0; now apply Tl|auto].
  - destruct r; [apply Rv; cbn [forallb]; now rewrite P0|auto].
  - apply IH; auto. cbn [forallb]. now rewrite T1.
Qed.
Lemma percents_dots p : percents_ok p = true -> percents_ok (without_dots p) = true.
Proof.
  destruct p as [|c p]; [reflexivity|]. intros H. cbn [without_dots]. change (percents_ok ([] ++ 47 :: join [47] (walk [] (split_on 47 p))) = true). rewrite percents_slash. cbn [percents_ok andb].
  apply percents_join, walk_all; auto. apply percents_split. cbn [percents_ok] in H. now apply andb_true_iff in H.
Qed.
Lemma percents_path p : (forall c, In c p -> path_char c) -> percents_ok p = true.
Proof.
  induction p as [|c p IH]; intros H; [reflexivity|]. cbn [percents_ok]. destruct (c =? 37) eqn:E; [|apply IH; intros d I; apply H; now right].
  exfalso. destruct (H c (or_introl eq_refl)) as [U|U]; [apply unreserved_not in U|]; lia.
Qed.
Lemma percents_resolved bp rp : (forall c, In c bp -> path_char c) -> from_root bp = true -> percents_ok rp = true -> percents_ok (resolved bp rp) = true.
Proof.
  intros B F H. unfold resolved. apply percents_dots. destruct rp as [|c rp]; [now apply percents_path|]. destruct (c =? 47); [exact H|].
  assert (D : exists x, directory bp = x ++ [47] /\ forall d, In d x -> In d bp).
  { destruct bp as [|d bp]; [exists []; split; [reflexivity|easy]|]. destruct (directory_cut (d :: bp)) as (x & y & E1 & _ & E2 & _); [easy|auto|].
    exists x. split; auto. intros e I. rewrite E1. apply in_app_iff. now left. }
  destruct D as (x & -> & Sx). rewrite <- app_assoc. change ([47] ++ c :: rp) with (47 :: c :: rp). rewrite percents_slash, H, percents_path; auto.
Qed.

(** ** Characters that a written path has *)
Definition okc (c : N) : bool := byte_in (b "!$&'()*+,;=:@[]%") c || negb (should_escape EncPath c).
Lemma hex_ok x : x < 16 -> okc (hex_digit x) = true.
Proof.
  intros L. unfold okc. replace (should_escape EncPath (hex_digit x)) with false; [now rewrite orb_true_r|]. unfold should_escape, hex_digit, is_letter, is_digit, in_range.
  destruct (x <? 10) eqn:E; [replace (_ || _) with true by lia|replace (_ || _) with true by lia]; reflexivity.
Qed.
Lemma escape_valid v : small v -> forallb okc (url_escape EncPath v) = true.
Proof.
  unfold url_escape. induction v as [|c v IH]; intros S; [reflexivity|]. cbn [flat_map]. rewrite forallb_app, IH by (intros d I; apply S; now right).
  rewrite andb_true_r. unfold escape_byte. destruct (should_escape EncPath c) eqn:E.
  - rewrite andb_false_r. assert (c < 256) by (apply S; now left). cbn [forallb]. rewrite !hex_ok; [reflexivity|apply N.mod_lt; lia|apply N.div_lt_upper_bound; lia].
  - cbn [forallb]. unfold okc. rewrite E. now rewrite orb_true_r.
Qed.
Lemma hexit_digit x : x < 16 -> hexit (hex_digit x) = true.
Proof. intros L. unfold hexit, hex_digit. destruct (x <? 10) eqn:E; lia. Qed.
Lemma escape_percents v : small v -> percents_ok (url_escape EncPath v) = true.
Proof.
  unfold url_escape. induction v as [|c v IH]; intros S; [reflexivity|]. cbn [flat_map].
  assert (IH' : percents_ok (flat_map (escape_byte EncPath) v) = true) by (apply IH; intros d I; apply S; now right).
  unfold escape_byte at 1. destruct (should_escape EncPath c) eqn:E.
  - rewrite andb_false_r. assert (c < 256) by (apply S; now left).
    assert (D1 : c / 16 < 16) by (apply N.div_lt_upper_bound; lia). assert (D2 : c mod 16 < 16) by (apply N.mod_lt; lia).
    cbn [app percents_ok]. rewrite IH', !hexit_digit by auto.
    assert (N1 : forall x, x < 16 -> (hex_digit x =? 37) = false) by (intros x L; unfold hex_digit; destruct (x <? 10) eqn:E1; lia).
    rewrite !N1 by auto. reflexivity.
  - cbn [app percents_ok]. rewrite IH'. destruct (c =? 37) eqn:Z; [|reflexivity]. assert (c = 37) by lia. subst c. discriminate E.
Qed.
(** What is written for a path is made of valid characters and triples. *)
Lemma escaped_good p val raw : small p -> percents_ok p = true -> set_from p val raw -> forallb okc (escaped_part EncPath raw val) = true /\ percents_ok (escaped_part EncPath raw val) = true.
Proof.
  intros S PO [A B]. unfold escaped_part. destruct (_ && _ && _) eqn:E.
  - apply andb_true_iff in E as [E _]. apply andb_true_iff in E as [_ E]. split; [exact E|]. destruct B as [->| ->]; auto.
  - destruct (beqb val (b "*")); [split; reflexivity|]. pose proof (spells_small _ _ A S). split; [now apply escape_valid|now apply escape_percents].
Qed.
Lemma okc_path c : path_char c -> okc c = true.
Proof. intros [U| ->]; [|reflexivity]. unfold okc. rewrite (no_escape c EncPath U). apply orb_true_r. Qed.
Lemma resolved_okc bp rp : (forall c, In c bp -> path_char c) -> forallb okc rp = true -> forallb okc (resolved bp rp) = true.
Proof.
  intros B R. apply forallb_forall. intros c I. rewrite forallb_forall in R. unfold resolved in I. apply dots_chars in I as [-> |I]; [reflexivity|].
  destruct rp as [|d rp]; [now apply okc_path, B|]. destruct (d =? 47); [now apply R|]. apply in_app_iff in I as [I|I]; [|now apply R].
  apply directory_chars in I as [-> |I]; [reflexivity|now apply okc_path, B].
Qed.
Lemma set_valid p v w : url_unescape EncPath p = Some v -> u_path w = v -> u_raw_path w = (if beqb p (url_escape EncPath v) then [] else p) ->
  forallb okc p = true -> from_root p = true -> escaped_path w = p.
Proof.
  intros E Ev Er C F. unfold escaped_path. rewrite Ev, Er. unfold escaped_part. destruct (beqb p (url_escape EncPath v)) eqn:G.
  - apply beqb_eq in G. cbn [is_empty negb andb]. destruct (beqb v (b "*")) eqn:St; [|auto]. apply beqb_eq in St. subst v. rewrite St in *.
    destruct (star_spelled p E) as [->|(x & y & ->)]; discriminate F.
  - change (valid_encoded EncPath p) with (forallb okc p). rewrite C, E, beqb_refl. destruct p; [|reflexivity]. injection E as <-. discriminate.
Qed.
(** Setting the resolved path *)
Lemma set_resolved p w sc h p0 : gshape w sc h p0 -> forallb okc p = true -> percents_ok p = true -> from_root p = true ->
  gshape (or_same (set_path p w) w) sc h p /\ escaped_path (or_same (set_path p w) w) = p /\ tail_string (or_same (set_path p w) w) = tail_string w.
Proof.
  intros [] C PO F. destruct (set_path_g p w PO) as (u' & E & E2 & E3 & E4 & E5 & E6 & E7 & E8). rewrite E. cbn [or_same]. split; [constructor; congruence || auto|].
  unfold set_path in E. destruct (url_unescape EncPath p) as [v|] eqn:U; [|discriminate]. injection E as <-. split; [now apply (set_valid p v)|reflexivity].
Qed.

(** ** Replacing brackets commutes with resolving *)
Lemma percent_one c : (c = 47 \/ c = 46) -> percent_byte c = [c].
Proof. intros [-> | ->]; reflexivity. Qed.
Lemma percent_split p : split_on 47 (percent_replace p) = map percent_replace (split_on 47 p).
Proof.
  induction p as [|c p IH]; [reflexivity|]. change (percent_replace (c :: p)) with (percent_byte c ++ percent_replace p). rewrite split_cons.
  destruct (c =? 47) eqn:Z; [assert (c = 47) by lia; subst c; cbn [percent_byte app]; change (percent_byte 47) with [47]; cbn [app]; rewrite split_cons; cbn; now rewrite IH|].
  assert (N : ~ In 47 (percent_byte c)) by (intros I; apply percent_byte_in in I; lia).
  destruct (split_cons_ne p) as (x & r & E). rewrite E in *. cbn [map] in *.
  change (percent_replace (c :: x)) with (percent_byte c ++ percent_replace x).
  revert N. generalize (percent_byte c) as y. induction y as [|d y IHy]; intros N; [exact IH|]. cbn [app]. rewrite split_cons.
  rewrite IHy by (intros I; apply N; now right). destruct (d =? 47) eqn:Zd; [elim N; left; lia|reflexivity].
Qed.
Lemma percent_nil s : percent_replace s = [] -> s = [].
Proof.
  destruct s as [|c s]; [reflexivity|]. change (percent_replace (c :: s)) with (percent_byte c ++ percent_replace s). unfold percent_byte.
  repeat match goal with |- context [if ?x then _ else _] => destruct x end; discriminate.
Qed.
Lemma percent_dot c t : percent_replace (c :: t) = 46 :: percent_replace t \/ forall r, percent_replace (c :: t) <> 46 :: r.
Proof.
  change (percent_replace (c :: t)) with (percent_byte c ++ percent_replace t). unfold percent_byte.
  repeat match goal with |- context [if ?x then _ else _] => destruct x end; try (right; intros r; discriminate). destruct (N.eq_dec c 46) as [-> |N0]; [now left|right; intros r; cbn; congruence].
Qed.
Lemma percent_dots_seg s : beqb (percent_replace s) (b "..") = beqb s (b "..") /\ beqb (percent_replace s) (b ".") = beqb s (b ".").
Proof.
  assert (K : forall k s, beqb (percent_replace s) (repeat 46 k) = beqb s (repeat 46 k)).
  { clear s. induction k as [|k IH]; intros s.
    - destruct s as [|c s]; [reflexivity|]. cbn [repeat beqb]. destruct (percent_replace (c :: s)) eqn:E; [now apply percent_nil in E|reflexivity].
    - destruct s as [|c s]; [reflexivity|]. cbn [repeat]. change (beqb (c :: s) (46 :: repeat 46 k)) with ((c =? 46) && beqb s (repeat 46 k)). rewrite <- IH.
      destruct (N.eq_dec c 46) as [-> |N0]; [reflexivity|]. replace (c =? 46) with false by lia. cbn [andb].
      change (percent_replace (c :: s)) with (percent_byte c ++ percent_replace s). unfold percent_byte.
      repeat match goal with |- context [if ?x then _ else _] => destruct x end; try reflexivity. cbn [app beqb]. now replace (c =? 46) with false by lia. }
  split; [apply (K 2%nat)|apply (K 1%nat)].
Qed.
Lemma percent_walk todo : forall up, walk (map percent_replace up) (map percent_replace todo) = map percent_replace (walk up todo).
Proof.
  assert (Tl : forall up, tl (map percent_replace up) = map percent_replace (tl up)) by (intros [|? ?]; reflexivity).
  induction todo as [|s r IH]; intros up; [cbn; now rewrite map_rev|]. cbn [map walk]. destruct (percent_dots_seg s) as [-> ->].
  destruct (beqb s (b "..")); [|destruct (beqb s (b "."))].
  - rewrite Tl. destruct r as [|y r]; [cbn [map]; now rewrite map_rev|]. apply IH.
  - destruct r as [|y r]; [cbn [map]; now rewrite map_rev|]. apply IH.
  - now rewrite <- IH.
Qed.
Lemma percent_join l : percent_replace (join [47] l) = join [47] (map percent_replace l).
Proof.
  induction l as [|x l IH]; [reflexivity|]. destruct l as [|y l]; [reflexivity|].
  change (join [47] (x :: y :: l)) with (x ++ [47] ++ join [47] (y :: l)). rewrite !percent_app, IH. reflexivity.
Qed.
Lemma percent_without_dots p : from_root p = true -> without_dots (percent_replace p) = percent_replace (without_dots p).
Proof.
  destruct p as [|c p]; [reflexivity|]. intros F. cbn in F. assert (c = 47) by lia. subst c. change (percent_replace (47 :: p)) with (47 :: percent_replace p).
  cbn [without_dots]. rewrite percent_split, (percent_walk _ []). change (percent_replace (47 :: ?x)) with (47 :: percent_replace x). now rewrite percent_join.
Qed.
Lemma percent_resolved bp rp : (forall c, In c bp -> path_char c) -> from_root bp = true -> resolved bp (percent_replace rp) = percent_replace (resolved bp rp).
Proof.
  intros B F. unfold resolved. assert (Pb : percent_replace bp = bp) by (apply percent_same; auto).
  assert (Dr : from_root (directory bp) = true /\ percent_replace (directory bp) = directory bp /\ directory bp <> []).
  { split; [|split].
    - destruct bp as [|d bp]; [reflexivity|]. destruct (directory_cut (d :: bp)) as (x & y & E1 & _ & -> & _); [easy|auto|]. destruct x as [|e x]; [reflexivity|]. injection E1 as <- _. exact F.
    - apply percent_same. intros c I. apply directory_chars in I as [-> |I]; [left; now right|auto].
    - destruct bp as [|d bp]; [easy|]. destruct (directory_cut (d :: bp)) as (x & y & E1 & _ & -> & _); [easy|auto|]. now destruct x. }
  destruct Dr as (D1 & D2 & D3).
  destruct rp as [|c rp]; [rewrite <- percent_without_dots, Pb; auto|].
  destruct (c =? 47) eqn:Z.
  - assert (c = 47) by lia. subst c. rewrite <- percent_without_dots by reflexivity. reflexivity.
  - rewrite <- percent_without_dots by (destruct (directory bp); [easy|exact D1]). rewrite percent_app, D2.
    destruct (percent_replace (c :: rp)) as [|d q] eqn:E; [now apply percent_nil in E|].
    destruct (d =? 47) eqn:Zd; [|reflexivity]. exfalso. assert (d = 47) by lia. subst d. change (percent_replace (c :: rp)) with (percent_byte c ++ percent_replace rp) in E.
    assert (I : In 47 (percent_byte c)).
    { destruct (percent_byte c) as [|e y] eqn:Eb; [|injection E as -> _; now left]. exfalso. revert Eb. unfold percent_byte. clear. repeat match goal with |- context [if ?x then _ else _] => destruct x end; discriminate. }
    apply percent_byte_in in I; lia.
Qed.
Lemma nds_suffix x y : no_double_slash (x ++ y) = true -> no_double_slash y = true.
Proof. induction x as [|c x IH]; auto. cbn [app no_double_slash]. intros H. apply andb_true_iff in H as [_ H]. auto. Qed.
Lemma percent_nds e : no_double_slash (percent_replace e) = true -> no_double_slash e = true.
Proof.
  induction e as [|c e IH]; [reflexivity|]. change (percent_replace (c :: e)) with (percent_byte c ++ percent_replace e). intros H.
  cbn [no_double_slash]. rewrite IH by (now apply nds_suffix in H). rewrite andb_true_r.
  destruct (c =? 47) eqn:Z; [|reflexivity]. assert (c = 47) by lia. subst c. destruct e as [|d e]; [reflexivity|]. destruct (d =? 47) eqn:Zd; [|reflexivity].
  assert (d = 47) by lia. subst d. discriminate H.
Qed.

(** ** A relative address *)
Lemma any_low p t : any_path p -> any_tail t -> forall c, In c (p ++ t) -> 32 <= c /\ c <> 127.
Proof. intros [A _] (_ & B & _) c I. apply in_app_iff in I as [I|I]; [apply A in I; lia|apply B in I; lia]. Qed.
Lemma assemble_any domain s u : (forall c, In c s -> 32 <= c) -> visible_ends s -> s <> [35] -> url_parse s = Some u -> u_scheme u <> b "data" ->
  assemble_absolute_url go_url domain s = percent_replace (url_string (match parse_base_domain go_url domain with Some base => resolve_reference base (ready u) | None => ready u end)).
Proof.
  intros V E N P D. rewrite assemble_eq. destruct (ends_prepared s V E) as [-> ->].
  destruct (beqb s [35]) eqn:E1; [now apply beqb_eq in E1|]. cbn [op_parse go_url]. rewrite P.
  destruct (beqb (op_scheme go_url u) (b "data")) eqn:E2; [now apply beqb_eq in E2|]. reflexivity.
Qed.
Lemma with_domain_any domain sc h bp path t : domain_is domain sc h bp -> any_path path -> alone path -> any_tail t -> visible_ends (path ++ t) -> path ++ t <> b "#" ->
  exists dots path' t', tail_of t' /\ same_spelling path path' /\ ~ In 35 path' /\ ~ In 63 path' /\ (dots = [] \/ dots = b "./") /\
    assemble_absolute_url go_url [] (path ++ t) = dots ++ path' ++ t' /\
    (no_double_slash path' = true -> assemble_absolute_url go_url domain (path ++ t) = sc ++ b "://" ++ h ++ resolved bp path' ++ t') /\
    (clear_text path -> path <> b "%2A" -> path' = path).
Proof.
  intros D A Al T V N. pose proof (any_low _ _ A T) as Low. pose proof A as [Ap PO].
  destruct (domain_sc _ _ _ _ D) as ((Ns & Cs) & Sh & Sb & Fb). destruct (simple_chars bp Sb) as [Hb NDb].
  assert (N35 : ~ In 35 path) by (intros I; apply Ap in I; lia). destruct (tail_split path t N35 T) as (q & Q & Qt & K).
  assert (Ct : existsb is_ctl (path ++ q) = false).
  { apply ctl_none. intros c I. apply Low. apply in_app_iff. apply in_app_iff in I as [I|I]; auto. }
  destruct (parse_alone path q A Al Q Ct) as (v & Pv & Gv). destruct (K v Pv) as (u & Pu & Gu). apply Gu in Gv. clear Gu.
  assert (Dt : u_scheme u <> b "data") by (rewrite (gs_scheme _ _ _ _ Gv); easy).
  destruct (base_parsed _ _ _ _ D) as (base & Pb & Sbase & Qb & Fr & Rf).
  rewrite !(assemble_any _ _ u); auto; [|intros c I; now apply Low..]. rewrite Pb. change (parse_base_domain go_url []) with (@None url). cbv iota.
  assert (Sr : gshape (ready u) [] [] path) by (destruct Gv; constructor; auto). set (r := ready u) in *. clearbody r. clear u Pu Gv Dt v Pv K.
  destruct (string_alone _ _ Sr) as (dots & E & Dd). rewrite E.
  assert (Sm : small path) by (intros c I; apply Ap in I; lia).
  destruct (escaped_good path (u_path r) (u_raw_path r) Sm PO (gs_path _ _ _ _ Sr)) as [Ok Pok]. change (escaped_part EncPath (u_raw_path r) (u_path r)) with (escaped_path r) in *.
  exists dots, (percent_replace (escaped_path r)), (percent_replace (tail_string r)). split; [apply percent_tail|].
  split; [apply same_percent_r, (escaped_same EncPath); [now left|auto|apply Sr]|]. destruct (escaped_path_no2 (u_raw_path r) (u_path r)) as [X Y].
  split; [intros I; apply percent_in_back in I; try lia; now apply X|]. split; [intros I; apply percent_in_back in I; try lia; now apply Y|].
  split; [destruct Dd as [[-> _]|[-> _]]; auto|].
  split; [rewrite !percent_app; destruct Dd as [[-> _]|[-> _]]; reflexivity|].
  split; [|intros C0 N0; rewrite (gs_clear _ _ _ _ Sr) by auto; now apply clear_percent]. intros ND. apply percent_nds in ND.
  unfold resolve_reference. rewrite (escaped_simple base _ _ _ Sbase Hb). rewrite (resolve_path_ok bp (escaped_path r)) by auto.
  rewrite (gs_scheme _ _ _ _ Sr), (gs_host _ _ _ _ Sr), (gs_user _ _ _ _ Sr), (gs_opaque _ _ _ _ Sr). cbn [is_empty negb orb is_some]. cbv zeta.
  rewrite (sh_scheme _ _ _ _ Sbase), (sh_host _ _ _ _ Sbase), (sh_user _ _ _ _ Sbase), Qb, Fr, Rf.
  set (same := is_empty (u_path r) && negb (u_force_query r) && is_empty (u_raw_query r)).
  set (w := with_base _ _ _ _ _ _ _).
  assert (Sw : gshape w sc h path) by (destruct Sr; unfold w; constructor; cbn [with_base u_scheme u_opaque u_user u_host u_path u_raw_path u_omit_host]; auto).
  destruct (set_resolved (resolved bp (escaped_path r)) w _ _ _ Sw) as (S1 & E1 & T1); [now apply resolved_okc|now apply percents_resolved|apply dots_root|].
  rewrite (string_hosted _ _ _ _ S1 Ns Sh) by (rewrite E1; apply dots_root). rewrite E1, T1.
  assert (Tw : tail_string w = tail_string r).
  { unfold tail_string, w, with_base, escaped_fragment. cbn [u_force_query u_raw_query u_fragment u_raw_fragment]. destruct same eqn:Es; [|reflexivity].
    unfold same in Es. apply andb_true_iff in Es as [_ Es]. cbn [andb]. destruct (u_raw_query r); [|discriminate]. f_equal.
    destruct (u_fragment r); reflexivity. }
  rewrite Tw, percent_resolved by auto. rewrite !percent_app. rewrite (percent_same sc) by auto.
  rewrite (percent_same h); [reflexivity|]. intros c I. apply host_chars in Sh as [_ Sh]. apply Sh in I as [I|I]; auto. left. now left.
Qed.

(** ** An address with a host *)
Lemma hosted_any domain sc h0 bp p p' path t : domain_is domain sc h0 bp -> front p p' -> p <> [] -> any_path path -> from_root path = true -> any_tail t -> visible_ends (p ++ path ++ t) ->
  exists path' t', tail_of t' /\ same_spelling path path' /\ ~ In 35 path' /\ ~ In 63 path' /\
    assemble_absolute_url go_url [] (p ++ path ++ t) = p' ++ path' ++ t' /\
    (no_double_slash path' = true -> assemble_absolute_url go_url domain (p ++ path ++ t) = completed sc p' ++ without_dots path' ++ t') /\
    (clear_text path -> path <> b "%2A" -> path' = path).
Proof.
  intros D F Np A Rt T V. pose proof (front_chars _ _ F) as Fc. pose proof A as [Ap PO]. pose proof T as (T1 & T2 & T3).
  destruct (domain_sc _ _ _ _ D) as ((Ns & Cs) & _). destruct (base_parsed _ _ _ _ D) as (base & Pb & Sbase & _).
  assert (Low : forall c, In c (p ++ path ++ t) -> 32 <= c /\ c <> 127).
  { intros c I. unfold visible in Fc. apply in_app_iff in I as [I|I]; [apply Fc in I; lia|]. apply in_app_iff in I as [I|I]; [apply Ap in I; lia|apply T2 in I; lia]. }
  assert (N35 : ~ In 35 (p ++ path)) by (intros I; apply in_app_iff in I as [I|I]; [apply Fc in I|apply Ap in I]; lia).
  destruct (tail_split (p ++ path) t N35 T) as (q & Q & Qt & K).
  assert (Ct : existsb is_ctl (p ++ path ++ q) = false).
  { apply ctl_none. intros c I. apply Low. apply in_app_iff. apply in_app_iff in I as [I|I]; auto. right. apply in_app_iff. apply in_app_iff in I as [I|I]; auto. }
  assert (Sm : small path) by (intros c I; apply Ap in I; lia).
  assert (X : exists u s h, url_parse (p ++ path ++ t) = Some u /\ gshape u s h path /\ simple_host h /\ (s = [] /\ p' = b "//" ++ h \/ s <> [] /\ s <> b "data" /\ p' = s ++ b "://" ++ h /\ (forall c, In c s -> path_char c \/ c = 58 \/ c = 43) /\ ~ In 47 s)).
  { destruct F as [|h Sh|s h Ss Nd Sh]; [easy|..].
    - destruct (parse_hosted [] ((b "//" ++ h) ++ path ++ q) h path q) as (v & Pv & Gv); auto.
      rewrite app_assoc in Pv. destruct (K v Pv) as (u & Pu & Gu). apply Gu in Gv. rewrite <- (app_assoc (b "//" ++ h) path t) in Pu. exists u, [], h. split; [exact Pu|]. auto.
    - destruct (scheme_pct s Ss) as [Ns' Cs'].
      destruct (parse_hosted s ((s ++ b "://" ++ h) ++ path ++ q) h path q) as (v & Pv & Gv); auto.
      { rewrite <- !app_assoc. now apply scheme_some. }
      { destruct s as [|c s]; [discriminate|]. cbn [app b]. apply not_true_is_false. intros W. apply beqb_eq in W. injection W as _ W. destruct s; discriminate. }
      rewrite (app_assoc (s ++ b "://" ++ h)) in Pv. destruct (K v Pv) as (u & Pu & Gu). apply Gu in Gv. rewrite <- (app_assoc (s ++ b "://" ++ h) path t) in Pu.
      exists u, (lowered s), h. split; [exact Pu|]. split; [exact Gv|]. split; [exact Sh|]. right. split; [exact Ns'|]. split; [exact Nd|]. split; [reflexivity|]. split; [exact Cs'|].
      intros I. unfold lowered in I. apply in_map_iff in I as (d & E & I). apply scheme_chars in Ss as [_ Ss]. apply Ss in I. destruct ((65 <=? d) && (d <=? 90)) eqn:E2; lia. }
  destruct X as (u & s & h & Pu & Gu & Sh & Cases). clear F K Q Qt Ct N35 q.
  assert (Dt : u_scheme u <> b "data") by (rewrite (gs_scheme _ _ _ _ Gu); destruct Cases as [[-> _]|(_ & ? & _)]; easy).
  assert (Nh : p ++ path ++ t <> [35]).
  { intros E. destruct p as [|c p]; [easy|]. injection E as -> _. destruct (Fc 35 (or_introl eq_refl)). lia. }
  rewrite !(assemble_any _ _ u); auto; [|intros c I; now apply Low..]. rewrite Pb. change (parse_base_domain go_url []) with (@None url). cbv iota.
  assert (Sr : gshape (ready u) s h path) by (destruct Gu; constructor; auto). set (r := ready u) in *. clearbody r. clear u Pu Gu Dt.
  destruct (escaped_good path (u_path r) (u_raw_path r) Sm PO (gs_path _ _ _ _ Sr)) as [Ok Pok].
  pose proof (escaped_rooted (u_raw_path r) (u_path r) path (gs_path _ _ _ _ Sr) Rt) as Re.
  change (escaped_part EncPath (u_raw_path r) (u_path r)) with (escaped_path r) in *.
  assert (Ph : percent_replace h = h).
  { apply percent_same. intros c I. apply host_chars in Sh as [_ Sh]. apply Sh in I as [I|I]; auto. left. now left. }
  exists (percent_replace (escaped_path r)), (percent_replace (tail_string r)). split; [apply percent_tail|].
  split; [apply same_percent_r, (escaped_same EncPath); [now left|auto|apply Sr]|]. destruct (escaped_path_no2 (u_raw_path r) (u_path r)) as [X Y].
  split; [intros I; apply percent_in_back in I; try lia; now apply X|]. split; [intros I; apply percent_in_back in I; try lia; now apply Y|].
  split.
  { destruct Cases as [[-> ->]|(Nn & _ & -> & Cc & Ns47)].
    - rewrite (string_unschemed _ _ _ Sr Sh Re). rewrite !percent_app, Ph, <- !app_assoc. reflexivity.
    - rewrite (string_hosted _ _ _ _ Sr Nn Sh Re). rewrite !percent_app, Ph, (percent_same s), <- !app_assoc by auto. reflexivity. }
  split; [|intros C0 N0; rewrite (gs_clear _ _ _ _ Sr) by auto; now apply clear_percent].
  intros ND. apply percent_nds in ND. set (full := if is_empty s then sc else s).
  assert (Nf : full <> [] /\ forall c, In c full -> path_char c \/ c = 58 \/ c = 43).
  { unfold full. destruct Cases as [[-> _]|(Nn & _ & _ & Cc & Ns47)]; [auto|]. destruct s; [easy|]. auto. }
  destruct Nf as [Nf Cf].
  assert (Comp : completed sc p' = full ++ b "://" ++ h).
  { unfold full, completed. destruct Cases as [[-> ->]|(Nn & _ & -> & Cc & Ns47)]; [reflexivity|]. destruct s as [|c s]; [easy|]. cbn [is_empty app].
    destruct (c =? 47) eqn:Z; [elim Ns47; left; lia|reflexivity]. }
  rewrite Comp. unfold resolve_reference. rewrite (resolve_path_ok (escaped_path r) []) by auto.
  rewrite (gs_scheme _ _ _ _ Sr), (gs_host _ _ _ _ Sr). assert (E1 : is_empty h = false) by (destruct (host_chars h Sh); destruct h; easy). rewrite E1.
  cbn [negb]. rewrite orb_true_r. cbn [orb]. cbv zeta.
  change (resolved (escaped_path r) []) with (without_dots (escaped_path r)). rewrite (sh_scheme _ _ _ _ Sbase). fold full. set (w := with_base _ _ _ _ _ _ _).
  assert (Sw : gshape w full h path) by (destruct Sr; unfold w; constructor; cbn [with_base u_scheme u_opaque u_user u_host u_path u_raw_path u_omit_host]; auto).
  assert (Okd : forallb okc (without_dots (escaped_path r)) = true).
  { apply forallb_forall. intros c I. rewrite forallb_forall in Ok. apply dots_chars in I as [-> |I]; [reflexivity|now apply Ok]. }
  destruct (set_resolved (without_dots (escaped_path r)) w _ _ _ Sw) as (S1 & E2 & T4); [exact Okd|now apply percents_dots|apply dots_root|].
  rewrite (string_hosted _ _ _ _ S1 Nf Sh) by (rewrite E2; apply dots_root). rewrite E2, T4. change (tail_string w) with (tail_string r).
  rewrite percent_without_dots by exact Re. rewrite !percent_app, Ph, (percent_same full), <- !app_assoc by auto. reflexivity.
Qed.
