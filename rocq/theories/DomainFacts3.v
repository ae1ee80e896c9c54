(** Facts for C65: writing the resolved addresses. *)
From Coq Require Import List NArith ZArith Bool String Lia ZifyBool ZifyNat ZifyN.
From Verif Require Import Bytes BytesFacts NetUrl Url SpecUrl UrlFacts UrlFacts2 SpecDomain DomainFacts DomainFacts2.
Import ListNotations.
Open Scope N_scope.
Open Scope list_scope.

Lemma walk_chars todo : forall up c s, In s (walk up todo) -> In c s -> exists s', (In s' up \/ In s' todo) /\ In c s'.
Proof.
  induction todo as [|x r IH]; intros up c s I J.
  - cbn in I. apply in_rev in I. eauto.
  - assert (T : forall s', In s' (tl up) -> In s' up) by (intros s' K; destruct up; [destruct K|now right]).
    cbn [walk] in I. destruct (beqb x (b "..")); [|destruct (beqb x (b "."))].
    + destruct r as [|y r].
      * apply in_rev in I as [<-|I]; [destruct J|]. eauto.
      * apply IH with (c := c) in I as (s' & [K|K] & L); auto; exists s'; split; auto. right. now right.
    + destruct r as [|y r].
      * apply in_rev in I as [<-|I]; [destruct J|]. eauto.
      * apply IH with (c := c) in I as (s' & [K|K] & L); auto; exists s'; split; auto. right. now right.
    + apply IH with (c := c) in I as (s' & [[<-|K]|K] & L); auto; exists s' || exists x; split; auto; [right; now left|right; now right].
Qed.
Lemma join_chars sep l c : In c (join sep l) -> In c sep \/ exists s, In s l /\ In c s.
Proof.
  induction l as [|x l IH]; cbn [join]; [intros []|]. destruct l as [|y l].
  - intros I. right. exists x. split; auto. now left.
  - intros I. apply in_app_iff in I as [I|I]; [right; exists x; split; auto; now left|]. apply in_app_iff in I as [I|I]; auto.
    apply IH in I as [I|(s & A & B)]; auto. right. exists s. split; auto. now right.
Qed.
Lemma dots_chars p c : In c (without_dots p) -> c = 47 \/ In c p.
Proof.
  destruct p as [|d p]; [intros []|]. cbn [without_dots]. intros [<-|I]; auto. apply join_chars in I as [[<-|[]]|(s & A & B)]; auto.
  apply (walk_chars _ _ c) in A as (s' & [[]|A] & C); auto. right. right. eapply split_sub; eauto.
Qed.
Lemma directory_chars p c : In c (directory p) -> c = 47 \/ In c p.
Proof.
  unfold directory. destruct p as [|d p]; [intros [<-|[]]; auto|]. intros I. apply in_rev in I. right. apply in_rev.
  remember (rev (d :: p)) as r eqn:E. clear E. induction r as [|x r IH]; [destruct I|]. destruct (x =? 47); auto. right. auto.
Qed.
Lemma resolved_chars bp rp : (forall c, In c bp -> path_char c) -> (forall c, In c rp -> path_char c) -> forall c, In c (resolved bp rp) -> path_char c.
Proof.
  intros A B c I. unfold resolved in I. apply dots_chars in I as [-> | I]; [now right|]. destruct rp as [|d rp]; auto.
  destruct (d =? 47); auto. apply in_app_iff in I as [I|I]; auto. apply directory_chars in I as [-> |I]; [now right|auto].
Qed.
Lemma dots_root p : from_root (without_dots p) = true.
Proof. destruct p; reflexivity. Qed.

Definition tail_string (u : url) : bytes :=
  (if u_force_query u || negb (is_empty (u_raw_query u)) then 63 :: u_raw_query u else []) ++ (if is_empty (u_fragment u) then [] else 35 :: escaped_fragment u).
Lemma escaped_simple u sc h p : shape u sc h p -> (forall c, In c p -> path_char c) -> escaped_path u = p.
Proof.
  intros [] H. unfold escaped_path, escaped_part. rewrite sh_raw, sh_path. cbn [is_empty negb andb].
  destruct (beqb p (b "*")) eqn:E; [apply beqb_eq in E; now subst p|]. now apply path_escape.
Qed.
Lemma string_full u sc h p : shape u sc h p -> sc <> [] -> simple_host h -> (forall c, In c p -> path_char c) -> from_root p = true ->
  url_string u = sc ++ b "://" ++ h ++ p ++ tail_string u.
Proof.
  intros Su Ns Sh H F. pose proof (escaped_simple _ _ _ _ Su H) as E. destruct Su. unfold url_string. rewrite E, sh_scheme, sh_opaque, sh_user, sh_host.
  destruct (host_chars h Sh) as [Nh _]. rewrite (proj1 (host_escape h Sh)).
  assert (E1 : is_empty sc = false) by (destruct sc; easy). assert (E2 : is_empty h = false) by (destruct h; easy). rewrite E1, E2.
  cbn [negb orb andb is_some is_empty]. rewrite andb_false_r. cbn [andb].
  assert (E3 : negb (is_empty p) && negb (has_prefix [47] p) = false).
  { destruct p as [|c p]; auto. cbn in F. assert (c = 47) by lia. now subst c. }
  rewrite E3. cbn [andb]. assert (E4 : is_empty ((sc ++ [58]) ++ ([47; 47] ++ [] ++ h) ++ []) = false) by (destruct sc; easy). rewrite E4. cbn [andb].
  unfold tail_string. rewrite <- !app_assoc. reflexivity.
Qed.
Lemma string_relative u p : shape u [] [] p -> (forall c, In c p -> path_char c) -> url_string u = p ++ tail_string u.
Proof.
  intros Su H. pose proof (escaped_simple _ _ _ _ Su H) as E. destruct Su. unfold url_string. rewrite E, sh_scheme, sh_opaque, sh_user, sh_host.
  cbn [is_empty negb orb andb is_some app]. rewrite andb_false_r. cbn [app is_empty andb].
  assert (N58 : contains_byte 58 (fst (cut 47 p)) = false).
  { unfold contains_byte. destruct (existsb _ _) eqn:X; auto. apply existsb_exists in X as (z & Iz & Ez). assert (z = 58) by lia. subst z.
    unfold cut in Iz. destruct (cut_at 47 p) as [[x y]|] eqn:C.
    - apply cut_at_eq in C as [-> _]. cbn [fst] in Iz. destruct (H 58) as [U|U]; [apply in_app_iff; now left|discriminate U|discriminate].
    - destruct (H 58) as [U|U]; [exact Iz|discriminate U|discriminate]. }
  rewrite N58. unfold tail_string. reflexivity.
Qed.
Lemma string_schemeless u h p : shape u [] h p -> simple_host h -> (forall c, In c p -> path_char c) -> from_root p = true -> url_string u = b "//" ++ h ++ p ++ tail_string u.
Proof.
  intros Su Sh H F. pose proof (escaped_simple _ _ _ _ Su H) as E. destruct Su. unfold url_string. rewrite E, sh_scheme, sh_opaque, sh_user, sh_host.
  destruct (host_chars h Sh) as [Nh _]. rewrite (proj1 (host_escape h Sh)).
  assert (E2 : is_empty h = false) by (destruct h; easy). rewrite E2.
  cbn [negb orb andb is_some is_empty app]. rewrite andb_false_r. cbn [andb].
  assert (E3 : negb (is_empty p) && negb (has_prefix [47] p) = false).
  { destruct p as [|c p]; auto. cbn in F. assert (c = 47) by lia. now subst c. }
  rewrite E3. cbn [andb app is_empty]. unfold tail_string. rewrite <- !app_assoc. reflexivity.
Qed.
Lemma percent_same s : (forall c, In c s -> path_char c \/ c = 58 \/ c = 43) -> percent_replace s = s.
Proof.
  unfold percent_replace. induction s as [|c s IH]; intros H; auto. cbn [flat_map]. rewrite IH by (intros; apply H; now right).
  destruct (percent_byte_ok c) as [P|P]; [|now rewrite P]. exfalso. destruct (H c (or_introl eq_refl)) as [[U|U]|U]; [apply unreserved_not in U| |]; lia.
Qed.
Lemma percent_tail u : tail_of (percent_replace (tail_string u)).
Proof. unfold tail_string. destruct (_ || _); [now left|]. destruct (is_empty _); [exact Logic.I|now right]. Qed.

(** preparing *)
Lemma prepared_same s : (forall c, In c s -> 33 <= c < 127) -> trim_space s = s /\ prepared_raw s = s.
Proof.
  intros H. assert (T : trim_space s = s).
  { apply trim_space_id.
    - intros N. destruct s as [|c s]; [easy|]. specialize (H c (or_introl eq_refl)). unfold decode_rune. destruct (c <? 128) eqn:E; [|lia]. cbn [fst]. unfold is_space_rune, in_range. lia.
    - intros N. destruct s as [|c s _] using rev_ind; [easy|]. specialize (H c). rewrite in_app_iff in H. specialize (H (or_intror (or_introl eq_refl))).
      unfold decode_last_rune. rewrite rev_app_distr. cbn [rev app decode_last_rune_rev]. destruct (c <? 128) eqn:E; [|lia]. cbn [fst]. unfold is_space_rune, in_range. lia. }
  split; auto. unfold prepared_raw. rewrite T. 
  assert (R : forall d new z, (forall c, In c z -> c <> d) -> replace_all [d] new z = z).
  { intros d new z Hz. rewrite replace_one. induction z as [|c z IH]; auto. cbn [flat_map]. destruct (c =? d) eqn:E; [elim (Hz c); [now left|lia]|]. cbn [app]. f_equal. apply IH. intros; apply Hz; now right. }
  rewrite (R cNL); [rewrite R; auto|]; intros c I; apply H in I; unfold cNL, cTAB; lia.
Qed.

(** the URL after the query was encoded *)
Definition ready (u : url) : url := with_query (replace_all [43] (b "%20") (parse_and_encode_query go_url (u_raw_query u))) u.
Lemma ready_shape u sc h p : shape u sc h p -> shape (ready u) sc h p.
Proof. intros []. constructor; auto. Qed.
Lemma assemble_visible domain s u : (forall c, In c s -> 33 <= c < 127) -> s <> [35] -> url_parse s = Some u -> u_scheme u <> b "data" ->
  assemble_absolute_url go_url domain s = percent_replace (url_string (match parse_base_domain go_url domain with Some base => resolve_reference base (ready u) | None => ready u end)).
Proof.
  intros V N P D. rewrite assemble_eq. destruct (prepared_same s V) as [-> ->].
  destruct (beqb s [35]) eqn:E; [now apply beqb_eq in E|]. cbn [op_parse go_url]. rewrite P.
  destruct (beqb (op_scheme go_url u) (b "data")) eqn:E2; [now apply beqb_eq in E2|]. reflexivity.
Qed.
Lemma path_ok p : (forall c, In c p -> path_char c) -> forall u sc h p0, shape u sc h p0 -> shape (or_same (set_path p u) u) sc h p /\ tail_string (or_same (set_path p u) u) = tail_string u.
Proof.
  intros H u sc h p0 Su. destruct (set_path_shape u sc h p0 p Su H) as (u' & -> & Su' & E1 & E2 & E3 & E4 & E5). cbn [or_same]. split; auto.
  unfold tail_string, escaped_fragment. now rewrite E2, E3, E4, E5.
Qed.
Lemma pct_full sc h p t : (forall c, In c sc -> path_char c \/ c = 58 \/ c = 43) -> simple_host h -> (forall c, In c p -> path_char c) ->
  percent_replace (sc ++ b "://" ++ h ++ p ++ t) = sc ++ b "://" ++ h ++ p ++ percent_replace t.
Proof.
  intros A B C. rewrite !percent_app. rewrite (percent_same sc) by auto. rewrite (percent_same p) by auto. rewrite (percent_same h); [reflexivity|].
  intros c I. apply host_chars in B as [_ B]. apply B in I as [I|I]; auto. left. now left.
Qed.
Lemma scheme_pct s : simple_scheme s = true -> lowered s <> [] /\ forall c, In c (lowered s) -> path_char c \/ c = 58 \/ c = 43.
Proof.
  intros S. destruct s as [|c t]; [discriminate|]. split; [easy|]. cbn [simple_scheme] in S. apply andb_true_iff in S as [S1 S2]. rewrite forallb_forall in S2.
  assert (G : forall d, (letter d || (48 <=? d) && (d <=? 57) || existsb (N.eqb d) [43; 45; 46]) = true -> path_char (if (65 <=? d) && (d <=? 90) then d + 32 else d) \/ (if (65 <=? d) && (d <=? 90) then d + 32 else d) = 58 \/ (if (65 <=? d) && (d <=? 90) then d + 32 else d) = 43).
  { intros d. unfold letter, path_char, unreserved. cbn. intros H. destruct ((65 <=? d) && (d <=? 90)) eqn:E; lia. }
  intros d I. unfold lowered in I. apply in_map_iff in I as (e & <- & [<-|I]); apply G; [now rewrite S1|auto].
Qed.
Lemma domain_sc domain sc h bp : domain_is domain sc h bp -> (sc <> [] /\ (forall c, In c sc -> path_char c \/ c = 58 \/ c = 43)) /\ simple_host h /\ simple_path bp = true /\ from_root bp = true.
Proof.
  intros [s h' p S Sh Sp F|h' p Sh Sp F]; (split; [|auto]); [now apply scheme_pct|]. split; [easy|]. intros c I. left. left. cbn in I. unfold unreserved. cbn. lia.
Qed.
Lemma good_visible x t : (forall c, In c x -> path_char c \/ c = 58 \/ c = 43) -> good_tail t -> forall c, In c (x ++ t) -> 33 <= c < 127.
Proof.
  intros H (_ & T & _) c I. apply in_app_iff in I as [I|I]; auto. apply H in I as [[I|I]|I]; [apply unreserved_not in I| |]; lia.
Qed.
Lemma with_domain domain sc h bp rp t : domain_is domain sc h bp -> simple_path rp = true -> good_tail t -> rp ++ t <> b "#" ->
  exists t', tail_of t' /\ assemble_absolute_url go_url [] (rp ++ t) = rp ++ t' /\
    assemble_absolute_url go_url domain (rp ++ t) = sc ++ b "://" ++ h ++ resolved bp rp ++ t'.
Proof.
  intros D Sp T N. destruct (simple_chars rp Sp) as [H ND]. destruct (domain_sc _ _ _ _ D) as ((Ns & Cs) & Sh & Sb & Fb). destruct (simple_chars bp Sb) as [Hb NDb].
  destruct (relative_parsed rp t Sp T) as (u & P & Su).
  assert (V : forall c, In c (rp ++ t) -> 33 <= c < 127) by (apply good_visible; auto).
  assert (Dt : u_scheme u <> b "data") by (rewrite (sh_scheme _ _ _ _ Su); easy).
  destruct (base_parsed _ _ _ _ D) as (base & Pb & Sbase & Qb & Fr & Rf).
  rewrite !(assemble_visible _ _ u) by auto. rewrite Pb. change (parse_base_domain go_url []) with (@None url). cbv iota.
  pose proof (ready_shape _ _ _ _ Su) as Sr. set (r := ready u) in *. clearbody r. clear u P Su Dt.
  exists (percent_replace (tail_string r)). split; [apply percent_tail|]. rewrite (string_relative r rp Sr H). rewrite percent_app, (percent_same rp) by auto. split; auto.
  unfold resolve_reference. rewrite (escaped_simple base _ _ _ Sbase Hb), (escaped_simple r _ _ _ Sr H). rewrite (resolve_path_ok bp rp) by auto.
  rewrite (sh_scheme _ _ _ _ Sr), (sh_host _ _ _ _ Sr), (sh_user _ _ _ _ Sr), (sh_opaque _ _ _ _ Sr), (sh_path _ _ _ _ Sr). cbn [is_empty negb orb is_some]. cbv zeta.
  rewrite (sh_scheme _ _ _ _ Sbase), (sh_host _ _ _ _ Sbase), (sh_user _ _ _ _ Sbase), Qb, Fr, Rf.
  set (same := is_empty rp && negb (u_force_query r) && is_empty (u_raw_query r)).
  set (w := with_base _ _ _ _ _ _ _).
  assert (Sw : shape w sc h rp) by (destruct Sr; unfold w; constructor; cbn [with_base u_scheme u_opaque u_user u_host u_path u_raw_path]; auto).
  pose proof (resolved_chars bp rp Hb H) as Hr.
  destruct (path_ok (resolved bp rp) Hr w _ _ _ Sw) as [S1 T1].
  rewrite (string_full _ _ _ _ S1 Ns Sh Hr (dots_root _)), T1.
  assert (Tw : tail_string w = tail_string r).
  { unfold tail_string, w, with_base, escaped_fragment. cbn [u_force_query u_raw_query u_fragment u_raw_fragment]. destruct same eqn:E; [|reflexivity].
    unfold same in E. apply andb_true_iff in E as [_ E]. cbn [andb]. destruct (u_raw_query r); [|discriminate]. f_equal.
    destruct (u_fragment r); reflexivity. }
  rewrite Tw. now apply pct_full.
Qed.
Lemma with_host domain s h rp t : simple_scheme s = true -> lowered s <> b "data" -> simple_host h -> simple_path rp = true -> from_root rp = true -> good_tail t ->
  exists t', tail_of t' /\ assemble_absolute_url go_url [] (s ++ b "://" ++ h ++ rp ++ t) = lowered s ++ b "://" ++ h ++ rp ++ t' /\
    (parse_base_domain go_url domain <> None -> assemble_absolute_url go_url domain (s ++ b "://" ++ h ++ rp ++ t) = lowered s ++ b "://" ++ h ++ without_dots rp ++ t').
Proof.
  intros S Nd Sh Sp F T. destruct (simple_chars rp Sp) as [H ND]. destruct (scheme_pct s S) as [Ns Cs].
  destruct (full_parsed (s ++ [58]) s h rp t) as (u & P & Su & O & _); auto. rewrite <- app_assoc in P. change ([58] ++ b "//" ++ h ++ rp ++ t) with (b "://" ++ h ++ rp ++ t) in P.
  assert (V : forall c, In c (s ++ b "://" ++ h ++ rp ++ t) -> 33 <= c < 127).
  { intros c I. apply in_app_iff in I as [I|I]; [apply scheme_chars in S as [_ S]; apply S in I; lia|]. apply in_app_iff in I as [I|I]; [cbn in I; lia|].
    apply in_app_iff in I as [I|I]; [now apply (host_visible h)|]. revert c I. apply good_visible; auto. }
  assert (N : s ++ b "://" ++ h ++ rp ++ t <> [35]) by (destruct s as [|c [|d s]]; easy).
  assert (Dt : u_scheme u <> b "data") by now rewrite (sh_scheme _ _ _ _ Su).
  rewrite !(assemble_visible _ _ u) by auto. change (parse_base_domain go_url []) with (@None url). cbv iota.
  pose proof (ready_shape _ _ _ _ Su) as Sr. set (r := ready u) in *. clearbody r. clear u P Su Dt O.
  exists (percent_replace (tail_string r)). split; [apply percent_tail|]. rewrite (string_full r _ _ _ Sr Ns Sh H F). split; [now apply pct_full|].
  intros B. destruct (parse_base_domain go_url domain) as [base|]; [|easy].
  unfold resolve_reference. rewrite (escaped_simple r _ _ _ Sr H). rewrite (resolve_path_ok rp []) by auto.
  rewrite (sh_scheme _ _ _ _ Sr). assert (E1 : is_empty (lowered s) = false) by (destruct (lowered s); easy). rewrite E1. cbn [negb orb]. cbv zeta.
  change (resolved rp []) with (without_dots rp). set (w := with_base _ _ _ _ _ _ _).
  assert (Sw : shape w (lowered s) h rp) by (destruct Sr; unfold w; constructor; cbn [with_base u_scheme u_opaque u_user u_host u_path u_raw_path]; auto).
  assert (Hr : forall c, In c (without_dots rp) -> path_char c) by (intros c I; apply dots_chars in I as [-> |I]; [now right|auto]).
  destruct (path_ok _ Hr w _ _ _ Sw) as [S1 T1]. rewrite (string_full _ _ _ _ S1 Ns Sh Hr (dots_root _)), T1. now apply pct_full.
Qed.
Lemma scheme_relative domain sc h0 bp h rp t : domain_is domain sc h0 bp -> simple_host h -> simple_path rp = true -> from_root rp = true -> good_tail t ->
  exists t', tail_of t' /\ assemble_absolute_url go_url [] (b "//" ++ h ++ rp ++ t) = b "//" ++ h ++ rp ++ t' /\
    assemble_absolute_url go_url domain (b "//" ++ h ++ rp ++ t) = sc ++ b "://" ++ h ++ without_dots rp ++ t'.
Proof.
  intros D Sh Sp F T. destruct (simple_chars rp Sp) as [H ND]. destruct (domain_sc _ _ _ _ D) as ((Ns & Cs) & _).
  destruct (base_parsed _ _ _ _ D) as (base & Pb & Sbase & _).
  destruct (full_parsed [] [] h rp t) as (u & P & Su & O & _); auto. cbn [app] in P. change (lowered []) with (@nil N) in Su.
  assert (V : forall c, In c (b "//" ++ h ++ rp ++ t) -> 33 <= c < 127).
  { intros c I. apply in_app_iff in I as [I|I]; [cbn in I; lia|].
    apply in_app_iff in I as [I|I]; [now apply (host_visible h)|]. revert c I. apply good_visible; auto. }
  assert (Dt : u_scheme u <> b "data") by (rewrite (sh_scheme _ _ _ _ Su); easy).
  rewrite !(assemble_visible _ _ u) by (auto; easy). rewrite Pb. change (parse_base_domain go_url []) with (@None url). cbv iota.
  pose proof (ready_shape _ _ _ _ Su) as Sr. set (r := ready u) in *. clearbody r. clear u P Su Dt O.
  exists (percent_replace (tail_string r)). split; [apply percent_tail|]. rewrite (string_schemeless r _ _ Sr Sh H F). split.
  { rewrite !percent_app, (percent_same rp) by auto. rewrite (percent_same h); [reflexivity|]. intros c I. apply host_chars in Sh as [_ Hh]. apply Hh in I as [I|I]; auto. left. now left. }
  unfold resolve_reference. rewrite (escaped_simple r _ _ _ Sr H). rewrite (resolve_path_ok rp []) by auto.
  rewrite (sh_scheme _ _ _ _ Sr), (sh_host _ _ _ _ Sr). assert (E1 : is_empty h = false) by (destruct (host_chars h Sh); destruct h; easy). rewrite E1. cbn [negb orb is_empty]. cbv zeta.
  change (resolved rp []) with (without_dots rp). rewrite (sh_scheme _ _ _ _ Sbase). set (w := with_base _ _ _ _ _ _ _).
  assert (Sw : shape w sc h rp) by (destruct Sr; unfold w; constructor; cbn [with_base u_scheme u_opaque u_user u_host u_path u_raw_path]; auto).
  assert (Hr : forall c, In c (without_dots rp) -> path_char c) by (intros c I; apply dots_chars in I as [-> |I]; [now right|auto]).
  destruct (path_ok _ Hr w _ _ _ Sw) as [S1 T1]. rewrite (string_full _ _ _ _ S1 Ns Sh Hr (dots_root _)), T1. now apply pct_full.
Qed.
(** Addresses with a scheme and without a slash *)
Lemma prepared_opaque s o : simple_scheme s = true -> from_root o = false \/ o = [] -> exists o', prepared_raw (s ++ 58 :: o) = s ++ 58 :: o' /\ (from_root o' = false \/ o' = []).
Proof.
  intros S O. destruct (scheme_chars s S) as [Ns Cs]. destruct (trim_space_ws (s ++ 58 :: o)) as (l & r & E & Fl & Fr).
  assert (l = []).
  { destruct l as [|c l]; auto. exfalso. destruct s as [|d s]; [easy|]. injection E as <- _. inversion Fl; subst. specialize (Cs d (or_introl eq_refl)). unfold ws_byte in *. lia. }
  subst l. cbn [app] in E. set (T := trim_space (s ++ 58 :: o)) in *.
  assert (X : exists o1, T = s ++ 58 :: o1 /\ o = o1 ++ r).
  { clearbody T. clear - E Fr. revert T E. induction s as [|c s IH]; intros T E.
    - destruct T as [|d T]; [cbn in E; subst r; inversion Fr; subst; unfold ws_byte in *; lia|]. injection E as <- ->. now exists T.
    - destruct T as [|d T].
      + cbn in E. exfalso. assert (I : In 58 r) by (rewrite <- E; right; apply in_app_iff; right; now left). rewrite Forall_forall in Fr. apply Fr in I. unfold ws_byte in I. lia.
      + injection E as <- E. apply IH in E as (o1 & -> & ->). now exists o1. }
  destruct X as (o1 & ET & ->). unfold prepared_raw. fold T. rewrite ET.
  assert (Id : forall d new, (forall c, In c (s ++ [58]) -> c <> d) -> forall z, replace_all [d] new (s ++ 58 :: z) = s ++ 58 :: replace_all [d] new z).
  { intros d new Hd z. rewrite !replace_one. replace (s ++ 58 :: z) with ((s ++ [58]) ++ z) by now rewrite <- app_assoc. rewrite flat_map_app. replace (s ++ 58 :: flat_map (fun x => if x =? d then new else [x]) z) with ((s ++ [58]) ++ flat_map (fun x => if x =? d then new else [x]) z) by now rewrite <- app_assoc. f_equal.
    induction (s ++ [58]) as [|c u IH]; auto. cbn [flat_map]. destruct (c =? d) eqn:Q; [elim (Hd c); [now left|lia]|]. cbn [app]. f_equal. apply IH. intros; apply Hd; now right. }
  assert (V : forall c, In c (s ++ [58]) -> c <> 10 /\ c <> 9).
  { intros c I. apply in_app_iff in I as [I|[<-|[]]]; [apply Cs in I; lia|lia]. }
  rewrite !Id by (intros c I; apply V in I; unfold cNL, cTAB; lia). eexists. split; [reflexivity|].
  destruct o1 as [|c o1]; [now right|]. left. destruct O as [O|O]; [|discriminate]. cbn in O. rewrite !replace_one. unfold cNL, cTAB. cbn [flat_map]. destruct (c =? 10); [reflexivity|]. cbn [app flat_map]. destruct (c =? 9); [reflexivity|]. cbn [app from_root]. exact O.
Qed.
Lemma opaque_kept domain s o : simple_scheme s = true -> from_root o = false \/ o = [] -> assemble_absolute_url go_url domain (s ++ 58 :: o) = assemble_absolute_url go_url [] (s ++ 58 :: o).
Proof.
  intros S O. rewrite !assemble_eq. destruct (prepared_opaque s o S O) as (o' & -> & O'). destruct (beqb _ [35]); auto.
  cbn [op_parse go_url]. destruct (url_parse (s ++ 58 :: o')) as [u|] eqn:P; auto. destruct (beqb (op_scheme go_url u) (b "data")); auto.
  cbv zeta. change (parse_base_domain go_url []) with (@None url). cbv iota. destruct (parse_base_domain go_url domain) as [base|]; auto.
  assert (K : u_scheme u = lowered s /\ u_path u = [] /\ u_raw_path u = []).
  { unfold url_parse in P. destruct (cut 35 (s ++ 58 :: o')) as [x f] eqn:C.
    assert (X : exists z, x = s ++ 58 :: z /\ (from_root z = false \/ z = [])).
    { unfold cut in C. destruct (cut_at 35 (s ++ 58 :: o')) as [[y g]|] eqn:C2; injection C as <- <-; [|eauto].
      apply cut_at_eq in C2 as [C2 N]. destruct (scheme_chars s S) as [_ Cs]. clear P S. revert y C2 N. induction s as [|c s IH]; intros y C2 N.
      - destruct y as [|d y]; [discriminate|]. injection C2 as <- C2. exists y. split; auto. destruct y as [|e y]; auto. left. subst o'. destruct O' as [O'|O']; [exact O'|discriminate].
      - destruct y as [|d y]; [injection C2 as -> _; specialize (Cs 35 (or_introl eq_refl)); lia|]. injection C2 as <- C2. apply IH in C2 as (z & -> & Z); [now exists z|intros d I; apply Cs; now right|intros I; apply N; now right]. }
    destruct X as (z & -> & Z). destruct (parse_no_fragment (s ++ 58 :: z)) as [v|] eqn:Pv; [|discriminate].
    assert (Kv : u_scheme v = lowered s /\ u_path v = [] /\ u_raw_path v = []).
    { unfold parse_no_fragment in Pv. destruct (existsb is_ctl _); [discriminate|]. destruct (scheme_chars s S) as [Ns _].
      assert (St : beqb (s ++ 58 :: z) (b "*") = false). { apply not_true_is_false. intros X. apply beqb_eq in X. destruct s as [|c [|d s]]; easy. }
      rewrite St, (scheme_some s z S) in Pv. cbv zeta in Pv. change (to_lower s) with (lowered s) in Pv. assert (E1 : is_empty (lowered s) = false) by (destruct s; easy). rewrite E1 in Pv. cbn [negb] in Pv.
      assert (G : forall w, (exists y, z = w ++ y) -> has_prefix [47] w = false).
      { intros w (y & ->). destruct w as [|c w]; auto. destruct Z as [Z|Z]; [|discriminate]. cbn in Z. change ((47 =? c) && true = false). lia. }
      destruct (_ && Nat.eqb _ 1).
      - rewrite (G (removelast z)) in Pv; [cbn [negb andb] in Pv; injection Pv as <-; auto|]. destruct z as [|c z _] using rev_ind; [now exists []|]. rewrite removelast_app by easy. cbn. rewrite app_nil_r. eauto.
      - destruct (cut 63 z) as [w q] eqn:Cz. rewrite (G w) in Pv; [cbn [negb andb] in Pv; injection Pv as <-; auto|].
        unfold cut in Cz. destruct (cut_at 63 z) as [[y g]|] eqn:C2; injection Cz as <- <-; [apply cut_at_eq in C2 as [-> _]; eauto|exists []; now rewrite app_nil_r]. }
    destruct (is_empty f); [injection P as <-; auto|]. unfold set_fragment in P. destruct (url_unescape EncFragment f); [|discriminate]. injection P as <-. exact Kv. }
  destruct K as (K1 & K2 & K3). f_equal. cbn [op_string op_resolve op_set_query op_query go_url]. set (q := replace_all _ _ _). 
  assert (Nl : is_empty (lowered s) = false) by (destruct s; easy).
  unfold resolve_reference. cbn [with_query with_base u_scheme u_path u_raw_path]. rewrite K1, Nl. cbn [negb orb].
  assert (Ep : escaped_path (with_query q u) = []) by (unfold escaped_path; cbn [with_query with_base u_raw_path u_path]; now rewrite K2, K3).
  rewrite Ep. change (resolve_path [] []) with (@nil N). unfold set_path. cbn [url_unescape]. change (beqb [] (url_escape EncPath [])) with true. cbn [or_same].
  f_equal. unfold with_query, with_base. cbn. rewrite K1, K2, K3. reflexivity.
Qed.
Lemma with_host_domain domain sc h0 bp s h rp t : domain_is domain sc h0 bp ->
  simple_scheme s = true -> lowered s <> b "data" -> simple_host h -> simple_path rp = true -> from_root rp = true -> good_tail t ->
  exists t', tail_of t' /\ assemble_absolute_url go_url [] (s ++ b "://" ++ h ++ rp ++ t) = lowered s ++ b "://" ++ h ++ rp ++ t' /\
    assemble_absolute_url go_url domain (s ++ b "://" ++ h ++ rp ++ t) = lowered s ++ b "://" ++ h ++ without_dots rp ++ t'.
Proof.
  intros D S Nd Sh Sp F T. destruct (with_host domain s h rp t S Nd Sh Sp F T) as (t' & A & B & C). exists t'. split; auto. split; auto. apply C.
  destruct (base_parsed _ _ _ _ D) as (base & -> & _). discriminate.
Qed.
