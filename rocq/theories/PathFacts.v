(** Facts for C74: paths and fragments of any characters. *)
From Coq Require Import List NArith ZArith Bool String Lia ZifyBool ZifyNat ZifyN.
From Verif Require Import Bytes BytesFacts NetUrl Url SpecUrl UrlFacts UrlFacts2 SpecDomain DomainFacts DomainFacts2 DomainFacts3 SpecPath.
Import ListNotations.
Open Scope N_scope.
Open Scope list_scope.

Definition plain_mode (m : encoding) : Prop := m = EncPath \/ m = EncFragment.
Lemma unescape_spells m s : plain_mode m -> forall v, url_unescape m s = Some v -> spells s v.
Proof.
  intros M. apply (two_ind (fun s => forall v, url_unescape m s = Some v -> spells s v)).
  - intros v [= <-]. constructor.
  - intros c s' IH1 IH2 v. cbn [url_unescape]. destruct (N.eqb_spec c 37) as [->|N37].
    + destruct s' as [|h [|l r]]; [discriminate..|]. specialize (IH2 h l r eq_refl). destruct (unhex h) as [x|] eqn:X; [|discriminate]. destruct (unhex l) as [y|] eqn:Y; [|discriminate].
      cbv zeta. replace (match m with EncHost => _ | EncZone => _ | _ => false end) with false by (destruct M as [-> | ->]; reflexivity).
      destruct (url_unescape m r) as [t|] eqn:T; [|discriminate]. cbn [option_map]. intros [= <-]. replace (x * 16 + y) with (16 * x + y) by lia.
      constructor; [now apply unhex_value..|auto].
    + replace ((c =? 43) && _) with false by (destruct M as [-> | ->]; now rewrite andb_false_r).
      replace (match m with EncHost => _ | EncZone => _ | _ => false end) with false by (destruct M as [-> | ->]; reflexivity).
      destruct (url_unescape m s') as [t|] eqn:T; [|discriminate]. cbn [option_map]. intros [= <-]. constructor; auto.
Qed.
Lemma path_unescape s : percents_ok s = true -> exists v, url_unescape EncPath s = Some v.
Proof.
  apply (two_ind (fun s => percents_ok s = true -> exists v, url_unescape EncPath s = Some v)).
  - now exists [].
  - intros c t IH1 IH2 H. cbn [percents_ok] in H. apply andb_true_iff in H as [H1 H2]. cbn [url_unescape]. rewrite andb_false_r. destruct (c =? 37).
    + destruct t as [|x [|y r]]; try discriminate. apply andb_true_iff in H1 as [X Y]. apply unhex_hexit in X as (vx & ->). apply unhex_hexit in Y as (vy & ->).
      cbn [percents_ok] in H2. apply andb_true_iff in H2 as [_ H2]. apply andb_true_iff in H2 as [_ H2]. destruct (IH2 x y r eq_refl H2) as (v & ->). now eexists.
    + destruct (IH1 H2) as (v & ->). now eexists.
Qed.
Lemma spells_small s t : spells s t -> small s -> small t.
Proof.
  induction 1 as [|h l x y s t Hx Hy H IH|c s t N2 H IH]; intros S; [easy|..].
  - intros c [<-|I]; [unfold hex_value in *; lia|]. apply IH; auto. intros d J. apply S. right. right. now right.
  - intros d [<-|I]; [apply S; now left|]. apply IH; auto. intros e J. apply S. now right.
Qed.
Lemma escape_spells m t : plain_mode m -> small t -> spells (url_escape m t) t.
Proof.
  intros M. unfold url_escape. induction t as [|c t IH]; intros S; [constructor|]. cbn [flat_map].
  assert (IH' : spells (flat_map (escape_byte m) t) t) by (apply IH; intros d J; apply S; now right).
  unfold escape_byte at 1. destruct (should_escape m c) eqn:E.
  - replace ((c =? 32) && _) with false by (destruct M as [-> | ->]; now rewrite andb_false_r). cbn [app]. assert (c < 256) by (apply S; now left).
    assert (D : 16 * (c / 16) + c mod 16 = c) by (symmetry; apply N.div_mod; lia).
    assert (D1 : c / 16 < 16) by (apply N.div_lt_upper_bound; lia). assert (D2 : c mod 16 < 16) by (apply N.mod_lt; lia).
    pose proof (spl_percent (hex_digit (c / 16)) (hex_digit (c mod 16)) (c / 16) (c mod 16) _ _ (hex_digit_value _ D1) (hex_digit_value _ D2) IH') as K.
    now rewrite D in K.
  - cbn [app]. constructor; auto. intros ->. destruct M as [-> | ->]; discriminate E.
Qed.
(** A part that was set from a text *)
Definition set_from (s val raw : bytes) : Prop := spells s val /\ (raw = s \/ raw = []).
Lemma escaped_same m s val raw : plain_mode m -> small s -> set_from s val raw -> same_spelling s (escaped_part m raw val).
Proof.
  intros M S [A B]. exists val. split; auto. unfold escaped_part. destruct (_ && _ && _) eqn:E.
  - destruct B as [->| ->]; [auto|discriminate].
  - destruct (beqb val (b "*")) eqn:F; [apply beqb_eq in F; subst val; change (spells [42] [42]); constructor; [discriminate|constructor]|].
    apply escape_spells; auto. eapply spells_small; eauto.
Qed.
(** A part that needs no encoding is written as it was *)
Lemma clear_valid m s : plain_mode m -> clear_text s -> valid_encoded m s = true.
Proof.
  intros M C. unfold valid_encoded. apply forallb_forall. intros c I. destruct (C c I) as [U|J].
  - rewrite (no_escape c m U). apply orb_true_r.
  - cbn in J. destruct M as [-> | ->]; repeat destruct J as [<-|J]; try reflexivity; destruct J.
Qed.
Lemma clear_written m s v : plain_mode m -> clear_text s -> url_unescape m s = Some v -> (v <> b "*" \/ url_escape m v = v) ->
  escaped_part m (if beqb s (url_escape m v) then [] else s) v = s.
Proof.
  intros M C U St. unfold escaped_part. destruct (beqb s (url_escape m v)) eqn:E.
  - apply beqb_eq in E. cbn [is_empty negb andb]. destruct (beqb v (b "*")) eqn:F; [|auto]. apply beqb_eq in F. destruct St as [St|St]; [contradiction|]. rewrite E, St. auto.
  - rewrite (clear_valid m s M C), U, beqb_refl. destruct s; [|reflexivity]. injection U as <-. discriminate.
Qed.
Lemma clear_percent s : clear_text s -> percent_replace s = s.
Proof.
  unfold percent_replace. induction s as [|c s IH]; intros C; [reflexivity|]. cbn [flat_map]. rewrite IH by (intros d I; apply C; now right).
  destruct (percent_byte_ok c) as [P|P]; [|now rewrite P]. exfalso. destruct (C c (or_introl eq_refl)) as [U|U]; [apply unreserved_not in U|cbn in U]; lia.
Qed.
Lemma star_spelled s : url_unescape EncPath s = Some [42] -> s = [42] \/ exists h l, s = [37; h; l].
Proof.
  destruct s as [|c s]; [discriminate|]. cbn [url_unescape]. rewrite andb_false_r. destruct (c =? 37) eqn:E.
  - assert (c = 37) by lia. subst c. destruct s as [|h [|l s]]; try discriminate. destruct (unhex h), (unhex l); try discriminate. cbv zeta.
    destruct (url_unescape EncPath s) as [t|] eqn:T; [|discriminate]. cbn [option_map]. intros [= X Y]. subst t. right. exists h, l. destruct s as [|d s]; [reflexivity|].
    apply (unescape_spells EncPath) in T; [|now left]. inversion T.
  - destruct (url_unescape EncPath s) as [t|] eqn:T; [|discriminate]. cbn [option_map]. intros [= X Y]. subst. left. destruct s as [|d s]; [reflexivity|].
    apply (unescape_spells EncPath) in T; [|now left]. inversion T.
Qed.
Lemma same_percent_r s x : same_spelling s x -> same_spelling s (percent_replace x).
Proof. intros (t & A & B). exists t. split; auto. now apply percent_keeps in B. Qed.

(** ** Fragments *)
Lemma set_fragment_from f u u' : set_fragment f u = Some u' -> set_from f (u_fragment u') (u_raw_fragment u').
Proof.
  unfold set_fragment. destruct (url_unescape EncFragment f) as [v|] eqn:E; [|discriminate]. intros [= <-]. cbn. split; [apply (unescape_spells EncFragment); auto; now right|].
  destruct (beqb _ _); auto.
Qed.
Lemma url_parse_fragment raw u : url_parse raw = Some u -> after 35 raw <> [] -> set_from (after 35 raw) (u_fragment u) (u_raw_fragment u).
Proof.
  unfold url_parse. intros H N. rewrite after_cut in *. destruct (cut 35 raw) as [x f]. cbn [snd] in *. destruct (parse_no_fragment x) as [v|]; [|discriminate].
  destruct f; [easy|]. cbn [is_empty] in H. now apply set_fragment_from in H.
Qed.
Lemma url_parse_clear raw u : url_parse raw = Some u -> after 35 raw <> [] -> clear_text (after 35 raw) -> escaped_part EncFragment (u_raw_fragment u) (u_fragment u) = after 35 raw.
Proof.
  unfold url_parse. intros H N. rewrite after_cut in *. destruct (cut 35 raw) as [x f]. cbn [snd] in *. destruct (parse_no_fragment x) as [v|]; [|discriminate].
  destruct f; [easy|]. cbn [is_empty] in H. unfold set_fragment in H. destruct (url_unescape EncFragment _) as [w|] eqn:E; [|discriminate]. injection H as <-. cbn [u_fragment u_raw_fragment].
  intros C. apply (clear_written EncFragment (n :: f) w (or_intror eq_refl) C E). destruct (beqb w (b "*")) eqn:F; [apply beqb_eq in F; subst w; now right|left; intros ->; now rewrite beqb_refl in F].
Qed.
Lemma or_same_fragment p u : u_fragment (or_same (set_path p u) u) = u_fragment u /\ u_raw_fragment (or_same (set_path p u) u) = u_raw_fragment u.
Proof. unfold set_path. destruct (url_unescape EncPath p); auto. Qed.
Lemma or_same_frag p v f r : u_fragment v = f -> u_raw_fragment v = r -> u_fragment (or_same (set_path p v) v) = f /\ u_raw_fragment (or_same (set_path p v) v) = r.
Proof. intros <- <-. apply or_same_fragment. Qed.
Lemma or_same_parts p u : parted u -> parted (or_same (set_path p u) u).
Proof. intros. now apply or_same_parted. Qed.
Lemma resolve_fragment base u : parted base -> parted u -> u_fragment u <> [] ->
  parted (resolve_reference base u) /\ u_fragment (resolve_reference base u) = u_fragment u /\ u_raw_fragment (resolve_reference base u) = u_raw_fragment u.
Proof.
  intros (A & B & C) (A' & B' & C') NE. assert (F0 : is_empty (u_fragment u) = false) by (destruct (u_fragment u); easy). unfold resolve_reference. cbv zeta. rewrite F0, !andb_false_r.
  assert (Sc : no2 (if is_empty (u_scheme u) then u_scheme base else u_scheme u)) by (destruct (is_empty (u_scheme u)); auto).
  destruct (negb (is_empty (u_scheme u)) || negb (is_empty (u_host u)) || is_some (u_user u)).
  - split; [|now apply or_same_frag]. apply or_same_parts. split; [exact Sc|]. split; cbn; auto.
  - destruct (negb (is_empty (u_opaque u))).
    + split; [|split; reflexivity]. split; [exact Sc|]. split; cbn; auto.
    + split; [|now apply or_same_frag]. apply or_same_parts. split; [exact Sc|]. split; cbn; auto. destruct (_ && _ && _); auto.
Qed.
Lemma string_fragment u : parted u -> u_fragment u <> [] -> after 35 (url_string u) = escaped_fragment u.
Proof.
  intros P N. destruct (url_string_parts u P) as (h & [H1 H2] & ->). destruct P as (_ & _ & Q). rewrite after_app by exact H1.
  destruct (u_fragment u); [easy|]. cbn [is_empty]. destruct (_ || _); [|reflexivity].
  change ((63 :: u_raw_query u) ++ ?x) with (63 :: (u_raw_query u ++ x)). cbn [after]. change (63 =? 35) with false. cbn iota. rewrite after_app by exact Q. reflexivity.
Qed.
Lemma after_in c s d : In d (after c s) -> In d s.
Proof. rewrite after_cut. destruct (cut c s) as [x y] eqn:E. apply cut_sub in E. intros I. now apply (proj2 E). Qed.
Lemma fragment_kept domain raw u : (forall c, In c raw -> c < 256) -> url_parse (prepared_raw raw) = Some u -> u_scheme u <> b "data" -> after 35 (prepared_raw raw) <> [] ->
  same_spelling (after 35 (prepared_raw raw)) (after 35 (assemble_absolute_url go_url domain raw)) /\
  (clear_text (after 35 (prepared_raw raw)) -> after 35 (assemble_absolute_url go_url domain raw) = after 35 (prepared_raw raw)).
Proof.
  intros S P D NE. pose proof (url_parse_fragment _ _ P NE) as F. destruct (url_parse_parted _ _ P) as [(A & B & C) Q2].
  rewrite assemble_eq. destruct (beqb (trim_space raw) [35]) eqn:T.
  { apply beqb_eq in T. unfold prepared_raw in NE. rewrite T in NE. now elim NE. }
  cbn [op_parse op_scheme op_query op_set_query op_resolve op_string go_url url_t]. rewrite P.
  destruct (beqb (u_scheme u) (b "data")) eqn:X; [now apply beqb_eq in X|]. cbv zeta. rewrite percent_after by auto.
  fold (spaced (parse_and_encode_query go_url (u_raw_query u))). set (q := spaced _).
  assert (W : parted (with_query q u)) by (split; [exact A|]; split; [exact B|]; now apply encoded_no35).
  assert (Nf : u_fragment u <> []) by (intros E; rewrite E in F; destruct F as [F _]; inversion F; congruence).
  assert (R : forall v, parted v /\ u_fragment v = u_fragment u /\ u_raw_fragment v = u_raw_fragment u -> same_spelling (after 35 (prepared_raw raw)) (percent_replace (after 35 (url_string v))) /\
    (clear_text (after 35 (prepared_raw raw)) -> percent_replace (after 35 (url_string v)) = after 35 (prepared_raw raw))).
  { intros v (V1 & V2 & V3). rewrite string_fragment; [|auto|congruence]. unfold escaped_fragment. rewrite V2, V3.
    split; [|intros C0; rewrite (url_parse_clear _ _ P NE C0); now apply clear_percent]. apply same_percent_r, escaped_same; [now right| |exact F].
    intros c I. apply after_in in I. now apply (prepared_small raw S). }
  destruct (parse_base_domain go_url domain) as [base|] eqn:Bd; apply R; [|auto].
  apply base_parted in Bd. now apply (resolve_fragment base (with_query q u)).
Qed.

(** ** Paths *)
Record gshape (u : url) (sc h p : bytes) : Prop := {
  gs_scheme : u_scheme u = sc; gs_opaque : u_opaque u = []; gs_user : u_user u = None; gs_host : u_host u = h; gs_path : set_from p (u_path u) (u_raw_path u); gs_omit : u_omit_host u = false;
  gs_clear : clear_text p -> p <> b "%2A" -> escaped_path u = p }.
Lemma set_clear p v w : url_unescape EncPath p = Some v -> u_path w = v -> u_raw_path w = (if beqb p (url_escape EncPath v) then [] else p) ->
  clear_text p -> p <> b "%2A" -> escaped_path w = p.
Proof.
  intros E Ev Er C N1. unfold escaped_path. rewrite Ev, Er. destruct (beqb v (b "*")) eqn:F; [|apply clear_written; auto; [now left|left; intros ->; now rewrite beqb_refl in F]].
  apply beqb_eq in F. subst v. rewrite F in *. destruct (star_spelled p E) as [->|(h & l & ->)]; [reflexivity|].
  unfold escaped_part. destruct (beqb [37; h; l] (url_escape EncPath (b "*"))) eqn:G; [apply beqb_eq in G; rewrite G in N1; now elim N1|].
  now rewrite (clear_valid EncPath _ (or_introl eq_refl) C), E, beqb_refl.
Qed.
Lemma set_path_g p u : percents_ok p = true -> exists u', set_path p u = Some u' /\ set_from p (u_path u') (u_raw_path u') /\ u_scheme u' = u_scheme u /\ u_opaque u' = u_opaque u /\ u_user u' = u_user u
  /\ u_host u' = u_host u /\ u_omit_host u' = u_omit_host u /\ (clear_text p -> p <> b "%2A" -> escaped_path u' = p).
Proof.
  intros P. unfold set_path. destruct (path_unescape p P) as (v & E). rewrite E. eexists. split; [reflexivity|]. cbn [u_scheme u_opaque u_user u_host u_omit_host u_path u_raw_path].
  split; [|repeat split; auto; intros C0 N0; now apply (set_clear p v)].
  split; [apply (unescape_spells EncPath); auto; now left|]. destruct (beqb _ _); auto.
Qed.
Lemma scheme_alone p q : ~ In 58 (before 47 p) -> query_part q -> forall i, scheme_len i (p ++ q) = Some None.
Proof.
  intros H Q. induction p as [|c p IH]; intros i.
  - destruct q as [|c q]; [reflexivity|]. cbn in Q. subst c. reflexivity.
  - cbn [before] in H. cbn [app scheme_len]. destruct (c =? 47) eqn:Z; [assert (c = 47) by lia; subst c; reflexivity|].
    assert (H2 : ~ In 58 (before 47 p)) by (intros I; apply H; now right).
    destruct (is_letter c) eqn:A; [now apply IH|]. destruct (is_digit c || byte_in (b "+-.") c); [destruct i; auto|].
    destruct (c =? 58) eqn:Y; [elim H; left; lia|reflexivity].
Qed.
Lemma parse_alone p q : any_path p -> alone p -> query_part q -> existsb is_ctl (p ++ q) = false -> exists u, parse_no_fragment (p ++ q) = Some u /\ gshape u [] [] p.
Proof.
  intros [H PO] [N58 N2] Q Ct. unfold parse_no_fragment. rewrite Ct.
  destruct (beqb (p ++ q) (b "*")) eqn:E.
  { apply beqb_eq in E.
    assert (p = [42]) as ->. { destruct p as [|c p]; [cbn in E; subst q; discriminate|]. injection E as -> E. apply app_eq_nil in E as [-> _]. reflexivity. }
    eexists. split; [reflexivity|]. constructor; try reflexivity. cbn [u_path u_raw_path]. split; [|now right].
    change (spells [42] [42]). constructor; [discriminate|constructor]. }
  unfold get_scheme. rewrite scheme_alone by auto. cbv iota beta. change (to_lower []) with (@nil N). cbv zeta.
  assert (N63 : ~ In 63 p) by (intros I; apply H in I; lia).
  destruct (query_cut p q N63 Q) as (force & query & Ef & Ec). rewrite Ef, Ec. cbn [is_empty negb andb].
  rewrite andb_false_r. cbn [negb]. rewrite <- before_cut.
  assert (C58 : contains_byte 58 (before 47 p) = false).
  { clear - N58. unfold contains_byte. apply not_true_is_false. intros X. apply existsb_exists in X as (z & Iz & Ez). assert (z = 58) by lia. subst z. contradiction. }
  rewrite C58, andb_false_r.
  assert (P : has_prefix (b "//") p = false).
  { destruct p as [|c [|d p]]; auto; [cbn; now rewrite andb_false_r|]. change ((47 =? c) && ((47 =? d) && true) = false). destruct (c =? 47) eqn:Z1; [|lia]. destruct (d =? 47) eqn:Z2; [|lia].
    elim N2. exists p. f_equal; [lia|]. f_equal. lia. }
  rewrite P, andb_false_r. match goal with |- exists u, set_path p ?v = _ /\ _ => destruct (set_path_g p v PO) as (u & E1 & E2 & E3 & E4 & E5 & E6 & E7 & E8) end.
  exists u. split; auto. constructor; auto.
Qed.
Lemma parse_hosted s rest h p q : get_scheme rest = Some (s, b "//" ++ h ++ p ++ q) -> beqb rest (b "*") = false -> simple_host h -> any_path p -> from_root p = true -> query_part q -> existsb is_ctl rest = false ->
  exists u, parse_no_fragment rest = Some u /\ gshape u (lowered s) h p.
Proof.
  intros G St Sh [H PO] F Q Ct. destruct (host_chars h Sh) as [Nh Hh]. unfold parse_no_fragment.
  rewrite Ct, St, G. cbv zeta.
  assert (N63 : ~ In 63 (b "//" ++ h ++ p)).
  { intros I. apply in_app_iff in I as [I|I]; [cbn in I; lia|]. apply in_app_iff in I as [I|I]; [apply Hh in I as [I|I]|apply H in I; lia]; try discriminate; apply unreserved_not in I; lia. }
  destruct (query_cut (b "//" ++ h ++ p) q N63 Q) as (force & query & Ef & Ec).
  replace (b "//" ++ h ++ p ++ q) with ((b "//" ++ h ++ p) ++ q) by now rewrite <- !app_assoc.
  rewrite Ef, Ec. change (b "//" ++ h ++ p) with (47 :: 47 :: h ++ p).
  change (has_prefix [47] (47 :: 47 :: h ++ p)) with true. cbn [negb andb]. change (has_prefix (b "//") (47 :: 47 :: h ++ p)) with true.
  assert (P3 : has_prefix (b "///") (47 :: 47 :: h ++ p) = false).
  { destruct h as [|c h]; [easy|]. change ((47 =? c) && true = false). destruct (Hh c (or_introl eq_refl)) as [I|I]; [apply unreserved_not in I|]; lia. }
  rewrite P3. cbn [negb]. rewrite orb_true_r. cbn [andb skipn].
  rewrite rooted_cut; [|intros I; apply Hh in I as [I|I]; [apply unreserved_not in I|]; lia|auto].
  rewrite host_parsed by auto. match goal with |- exists u, set_path p ?v = _ /\ _ => destruct (set_path_g p v PO) as (u & E1 & E2 & E3 & E4 & E5 & E6 & E7 & E8) end.
  exists u. split; auto. constructor; auto.
Qed.
(** Splitting off the fragment *)
Lemma tail_split x t : ~ In 35 x -> any_tail t -> exists q, query_part q /\ (forall c, In c q -> In c t) /\
  forall v, parse_no_fragment (x ++ q) = Some v -> exists u, url_parse (x ++ t) = Some u /\ forall sc h p, gshape v sc h p -> gshape u sc h p.
Proof.
  intros N (T & _ & PO). exists (before 35 t). split; [|split].
  - destruct t as [|c t]; [exact Logic.I|]. cbn [tail_of] in T. destruct T as [-> | ->]; cbn; auto.
  - intros c I. rewrite before_cut in I. destruct (cut 35 t) as [y z] eqn:E. apply cut_sub in E. now apply (proj1 E).
  - intros v P. unfold url_parse. rewrite (surjective_pairing (cut 35 (x ++ t))), <- before_cut, <- after_cut, before_app, after_app by auto. rewrite P.
    destruct (is_empty (after 35 t)) eqn:E; [eauto|]. unfold set_fragment. destruct (fragment_unescape _ PO) as (w & ->). eexists. split; [reflexivity|].
    intros sc h p []. constructor; auto.
Qed.
(** Writing *)
Lemma string_hosted u sc h p : gshape u sc h p -> sc <> [] -> simple_host h -> from_root (escaped_path u) = true -> url_string u = sc ++ b "://" ++ h ++ escaped_path u ++ tail_string u.
Proof.
  intros [] Ns Sh F. unfold url_string. rewrite gs_scheme0, gs_opaque0, gs_user0, gs_host0.
  destruct (host_chars h Sh) as [Nh _]. rewrite (proj1 (host_escape h Sh)). set (e := escaped_path u) in *.
  assert (E1 : is_empty sc = false) by (destruct sc; easy). assert (E2 : is_empty h = false) by (destruct h; easy). rewrite E1, E2.
  cbn [negb orb andb is_some is_empty]. rewrite andb_false_r. cbn [andb].
  assert (E3 : negb (is_empty e) && negb (has_prefix [47] e) = false).
  { destruct e as [|c e]; auto. cbn in F. assert (c = 47) by lia. now subst c. }
  rewrite E3. cbn [andb]. assert (E4 : is_empty ((sc ++ [58]) ++ ([47; 47] ++ [] ++ h) ++ []) = false) by (destruct sc; easy). rewrite E4. cbn [andb].
  unfold tail_string. rewrite <- !app_assoc. reflexivity.
Qed.
Lemma string_unschemed u h p : gshape u [] h p -> simple_host h -> from_root (escaped_path u) = true -> url_string u = b "//" ++ h ++ escaped_path u ++ tail_string u.
Proof.
  intros [] Sh F. unfold url_string. rewrite gs_scheme0, gs_opaque0, gs_user0, gs_host0.
  destruct (host_chars h Sh) as [Nh _]. rewrite (proj1 (host_escape h Sh)). set (e := escaped_path u) in *.
  assert (E2 : is_empty h = false) by (destruct h; easy). rewrite E2.
  cbn [negb orb andb is_some is_empty app]. rewrite andb_false_r. cbn [andb].
  assert (E3 : negb (is_empty e) && negb (has_prefix [47] e) = false).
  { destruct e as [|c e]; auto. cbn in F. assert (c = 47) by lia. now subst c. }
  rewrite E3. cbn [andb app is_empty]. unfold tail_string. rewrite <- !app_assoc. reflexivity.
Qed.
Lemma string_alone u p : gshape u [] [] p -> exists dots, url_string u = dots ++ escaped_path u ++ tail_string u /\ (dots = [] /\ ~ In 58 (before 47 (escaped_path u)) \/ dots = b "./" /\ In 58 (before 47 (escaped_path u))).
Proof.
  intros []. unfold url_string. rewrite gs_scheme0, gs_opaque0, gs_user0, gs_host0. set (e := escaped_path u).
  cbn [is_empty negb orb andb is_some app]. rewrite andb_false_r. cbn [app is_empty andb]. rewrite <- before_cut.
  destruct (contains_byte 58 (before 47 e)) eqn:E; [exists (b "./")|exists []]; (split; [unfold tail_string; now rewrite <- ?app_assoc|]); [right|left]; (split; [reflexivity|]); unfold contains_byte in E.
  - apply existsb_exists in E as (z & Iz & Ez). assert (z = 58) by lia. now subst z.
  - intros I. assert (X : existsb (N.eqb 58) (before 47 e) = true) by (apply existsb_exists; exists 58; now split). congruence.
Qed.
Lemma percent_colon e : In 58 (before 47 (percent_replace e)) <-> In 58 (before 47 e).
Proof.
  induction e as [|c e IH]; [easy|]. change (percent_replace (c :: e)) with (percent_byte c ++ percent_replace e). cbn [before].
  destruct (c =? 47) eqn:Z; [assert (c = 47) by lia; subst c; easy|].
  assert (C58 : In 58 (percent_byte c) <-> c = 58).
  { split; [|intros ->; now left]. unfold percent_byte. repeat match goal with |- context [if ?x then _ else _] => destruct x end; cbn; lia. }
  rewrite before_app; [|intros I; apply percent_byte_in in I; lia]. rewrite in_app_iff, IH, C58. cbn [In]. tauto.
Qed.
(** A path from the root stays one *)
Lemma escaped_rooted raw val p : set_from p val raw -> from_root p = true -> from_root (escaped_part EncPath raw val) = true.
Proof.
  intros [A B] F. unfold escaped_part. destruct (_ && _ && _) eqn:E; [destruct B as [->| ->]; [auto|discriminate]|].
  destruct A as [|h l x y s t Hx Hy A|c s t Nc A]; [reflexivity|discriminate F|]. cbn in F. assert (c = 47) by lia. subst c. reflexivity.
Qed.
Lemma ends_prepared s : (forall c, In c s -> 32 <= c) -> visible_ends s -> trim_space s = s /\ prepared_raw s = s.
Proof.
  intros H [V1 V2]. assert (T : trim_space s = s).
  { apply trim_space_id.
    - intros N. destruct s as [|c s]; [easy|]. specialize (V1 c s eq_refl). unfold visible in V1. unfold decode_rune. destruct (c <? 128) eqn:E; [|lia]. cbn [fst]. unfold is_space_rune, in_range. lia.
    - intros N. destruct s as [|c s _] using rev_ind; [easy|]. specialize (V2 c s eq_refl). unfold visible in V2.
      unfold decode_last_rune. rewrite rev_app_distr. cbn [rev app decode_last_rune_rev]. destruct (c <? 128) eqn:E; [|lia]. cbn [fst]. unfold is_space_rune, in_range. lia. }
  split; auto. unfold prepared_raw. rewrite T.
  assert (R : forall d new z, (forall c, In c z -> c <> d) -> replace_all [d] new z = z).
  { intros d new z Hz. rewrite replace_one. induction z as [|c z IH]; auto. cbn [flat_map]. destruct (c =? d) eqn:E; [elim (Hz c); [now left|lia]|]. cbn [app]. f_equal. apply IH. intros; apply Hz; now right. }
  rewrite (R cNL); [rewrite R; auto|]; intros c I; apply H in I; unfold cNL, cTAB; lia.
Qed.
Lemma front_chars p p' : front p p' -> forall c, In c p -> visible c /\ c <> 35 /\ c <> 63.
Proof.
  assert (Hh : forall h, simple_host h -> forall c, In c h -> visible c /\ c <> 35 /\ c <> 63).
  { intros h S c I. apply host_chars in S as [_ S]. unfold visible. apply S in I as [I|I]; [apply unreserved_not in I|]; lia. }
  intros [|h Sh|s h Ss Nd Sh] c I; [destruct I|..].
  - apply in_app_iff in I as [I|I]; [|eauto]. unfold visible. cbn in I. lia.
  - apply in_app_iff in I as [I|I]; [apply scheme_chars in Ss as [_ Ss]; apply Ss in I; unfold visible; lia|]. apply in_app_iff in I as [I|I]; [|eauto]. unfold visible. cbn in I. lia.
Qed.
Lemma ctl_none s : (forall c, In c s -> 32 <= c /\ c <> 127) -> existsb is_ctl s = false.
Proof. intros H. apply not_true_is_false. intros X. apply existsb_exists in X as (c & I & E). apply H in I. unfold is_ctl in E. lia. Qed.
Lemma path_kept p p' path t : front p p' -> any_path path -> (p = [] -> alone path) -> (p <> [] -> from_root path = true) -> any_tail t -> visible_ends (p ++ path ++ t) -> p ++ path ++ t <> b "#" ->
  exists dots path' t', assemble_absolute_url go_url [] (p ++ path ++ t) = p' ++ dots ++ path' ++ t' /\ tail_of t' /\ same_spelling path path' /\ ~ In 35 path' /\ ~ In 63 path' /\
    (dots = [] /\ (p = [] -> ~ In 58 (before 47 path')) \/ dots = b "./" /\ p = [] /\ In 58 (before 47 path')) /\ (clear_text path -> path <> b "%2A" -> path' = path).
Proof.
  intros F A Al Rt T V Nh. pose proof (front_chars _ _ F) as Fc. pose proof A as [Ap PO]. pose proof T as (T1 & T2 & T3).
  assert (Low : forall c, In c (p ++ path ++ t) -> 32 <= c /\ c <> 127).
  { intros c I. unfold visible in Fc. apply in_app_iff in I as [I|I]; [apply Fc in I; lia|]. apply in_app_iff in I as [I|I]; [apply Ap in I; lia|apply T2 in I; lia]. }
  destruct (ends_prepared (p ++ path ++ t)) as [Et Ep]; [intros c I; now apply Low|auto|].
  assert (N35 : ~ In 35 (p ++ path)) by (intros I; apply in_app_iff in I as [I|I]; [apply Fc in I|apply Ap in I]; lia).
  destruct (tail_split (p ++ path) t N35 T) as (q & Q & Qt & K).
  assert (Ct : existsb is_ctl (p ++ path ++ q) = false).
  { apply ctl_none. intros c I. apply Low. apply in_app_iff. apply in_app_iff in I as [I|I]; auto. right. apply in_app_iff. apply in_app_iff in I as [I|I]; auto. }
  set (hostpart := match p with [] => [] | _ => p end). clear hostpart.
  assert (G : forall u, url_parse (p ++ path ++ t) = Some u -> u_scheme u <> b "data" -> assemble_absolute_url go_url [] (p ++ path ++ t) = percent_replace (url_string (ready u))).
  { intros u P D. rewrite assemble_eq. rewrite Et, Ep. destruct (beqb _ [35]) eqn:E; [apply beqb_eq in E; now elim Nh|]. cbn [op_parse go_url]. rewrite P.
    destruct (beqb (op_scheme go_url u) (b "data")) eqn:E2; [now apply beqb_eq in E2|]. reflexivity. }
  assert (R : forall u sc h, gshape u sc h path -> gshape (ready u) sc h path) by (intros u sc h []; constructor; auto).
  assert (Sm : small path) by (intros c I; apply Ap in I; lia).
  assert (Fin : forall r sc h, gshape r sc h path -> same_spelling path (percent_replace (escaped_path r)) /\ ~ In 35 (percent_replace (escaped_path r)) /\ ~ In 63 (percent_replace (escaped_path r)) /\ (clear_text path -> path <> b "%2A" -> percent_replace (escaped_path r) = path)).
  { intros r sc h []. split; [apply same_percent_r, (escaped_same EncPath); auto; now left|]. destruct (escaped_path_no2 (u_raw_path r) (u_path r)) as [X Y].
    split; [|split; [|intros C0 N0; rewrite gs_clear0 by auto; now apply clear_percent]]; intros I; apply percent_in_back in I; try lia; [now apply X|now apply Y]. }
  rewrite !app_assoc in *. destruct F as [|h Sh|s h Ss Nd Sh].
  - destruct (parse_alone path q A (Al eq_refl) Q Ct) as (v & Pv & Gv). destruct (K v Pv) as (u & Pu & Gu). apply Gu in Gv. clear Gu.
    rewrite (G u Pu) by (rewrite (gs_scheme _ _ _ _ Gv); easy). apply R in Gv. destruct (string_alone _ _ Gv) as (dots & E & D). rewrite E.
    exists (percent_replace dots), (percent_replace (escaped_path (ready u))), (percent_replace (tail_string (ready u))). rewrite !percent_app. split; [reflexivity|]. split; [apply percent_tail|].
    destruct (Fin _ _ _ Gv) as (X & Y & Z & W0). split; auto. split; auto. split; auto. split; [|exact W0]. rewrite percent_colon. destruct D as [[-> D]|[-> D]]; [left|right]; repeat split; auto.
  - assert (Rp : from_root path = true) by (apply Rt; easy).
    destruct (parse_hosted [] ((b "//" ++ h) ++ path ++ q) h path q) as (v & Pv & Gv); auto.
    { rewrite app_assoc. exact Ct. }
    rewrite app_assoc in Pv. destruct (K v Pv) as (u & Pu & Gu). apply Gu in Gv. clear Gu.
    rewrite (G u Pu) by (rewrite (gs_scheme _ _ _ _ Gv); easy). apply R in Gv. destruct (Fin _ _ _ Gv) as (X & Y & Z & W0).
    rewrite (string_unschemed _ _ _ Gv Sh) by (apply (escaped_rooted _ _ path); [apply Gv|auto]).
    exists [], (percent_replace (escaped_path (ready u))), (percent_replace (tail_string (ready u))). rewrite !percent_app. rewrite (percent_same h); [|intros c I; apply host_chars in Sh as [_ Sh]; apply Sh in I as [I|I]; auto; left; now left].
    split; [now rewrite <- !app_assoc|]. split; [apply percent_tail|]. split; auto. split; auto. split; auto. split; [|auto]. left. split; [reflexivity|]. intros W. discriminate W.
  - assert (Rp : from_root path = true) by (apply Rt; destruct s; easy). destruct (scheme_pct s Ss) as [Ns Cs].
    destruct (parse_hosted s ((s ++ b "://" ++ h) ++ path ++ q) h path q) as (v & Pv & Gv); auto.
    { rewrite <- !app_assoc. now apply scheme_some. }
    { destruct s as [|c s]; [discriminate|]. cbn [app b]. apply not_true_is_false. intros W. apply beqb_eq in W. injection W as _ W. destruct s; discriminate. }
    { rewrite (app_assoc (s ++ b "://" ++ h)). exact Ct. }
    destruct (K v) as (u & Pu & Gu); [rewrite (app_assoc (s ++ b "://" ++ h)) in Pv; exact Pv|]. apply Gu in Gv. clear Gu.
    rewrite (G u) by (try rewrite (gs_scheme _ _ _ _ Gv); auto). apply R in Gv. destruct (Fin _ _ _ Gv) as (X & Y & Z & W0).
    rewrite (string_hosted _ _ _ _ Gv Ns Sh) by (apply (escaped_rooted _ _ path); [apply Gv|auto]).
    exists [], (percent_replace (escaped_path (ready u))), (percent_replace (tail_string (ready u))). rewrite !percent_app. rewrite (percent_same h); [|intros c I; apply host_chars in Sh as [_ Sh]; apply Sh in I as [I|I]; auto; left; now left].
    rewrite (percent_same (lowered s)) by auto. split; [now rewrite <- !app_assoc|]. split; [apply percent_tail|]. split; auto. split; auto. split; auto. split; [|auto]. left. split; [reflexivity|]. intros W. destruct s; [discriminate Ss|discriminate W].
Qed.
