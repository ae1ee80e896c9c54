(** Proofs about the query of the assembled destination (C28). *)
From Coq Require Import List NArith Arith Bool Lia ZifyBool ZifyNat ZifyN String.
From Verif Require Import Bytes NetUrl Url SpecText SpecUrl BytesFacts PanicFacts UrlFacts.
Import ListNotations.
Open Scope N_scope.
Open Scope list_scope.

Lemma before_app c x y : ~ In c x -> before c (x ++ y) = x ++ before c y.
Proof.
  induction x as [|d x IH]; [reflexivity|]. intros N. cbn. destruct (N.eqb_spec d c); [elim N; now left|].
  rewrite IH; [reflexivity|]. intros I. apply N. now right.
Qed.
Lemma after_app c x y : ~ In c x -> after c (x ++ y) = after c y.
Proof.
  induction x as [|d x IH]; [reflexivity|]. intros N. cbn. destruct (N.eqb_spec d c); [elim N; now left|].
  apply IH. intros I. apply N. now right.
Qed.
Lemma before_none c x : ~ In c x -> before c x = x.
Proof. intros N. rewrite <- (app_nil_r x) at 1. rewrite before_app by exact N. cbn. apply app_nil_r. Qed.
Lemma after_none c x : ~ In c x -> after c x = [].
Proof. intros N. rewrite <- (app_nil_r x). now rewrite after_app. Qed.
Lemma before_cut c s : before c s = fst (cut c s).
Proof.
  unfold cut. induction s as [|d s IH]; [reflexivity|]. cbn. destruct (d =? c); [reflexivity|]. rewrite IH.
  destruct (cut_at c s) as [[x y]|]; reflexivity.
Qed.
Lemma after_cut c s : after c s = snd (cut c s).
Proof.
  unfold cut. induction s as [|d s IH]; [reflexivity|]. cbn. destruct (d =? c); [reflexivity|]. rewrite IH.
  destruct (cut_at c s) as [[x y]|]; reflexivity.
Qed.

(** ** Neither ? nor # in the other parts *)
Definition no2 (s : bytes) : Prop := ~ In 35 s /\ ~ In 63 s.
Lemma no2_nil : no2 []. Proof. split; intros []. Qed.
Lemma no2_app x y : no2 x -> no2 y -> no2 (x ++ y).
Proof. intros [A B] [C D]. split; intros I; apply in_app_iff in I as [I|I]; auto. Qed.
Lemma no2_cons c x : c <> 35 -> c <> 63 -> no2 x -> no2 (c :: x).
Proof. intros A B [C D]. split; intros [I|I]; auto. Qed.
Lemma no2_sub x y : no2 y -> (forall c, In c x -> In c y) -> no2 x.
Proof. intros [A B] H. split; intros I; auto. Qed.
Lemma hex_digit_not n : hex_digit n <> 35 /\ hex_digit n <> 63.
Proof. unfold hex_digit. destruct (n <? 10) eqn:E; lia. Qed.
Lemma escape_not c m s : c = 35 \/ c = 63 -> should_escape m c = true -> ~ In c (url_escape m s).
Proof.
  intros C SE. unfold url_escape. rewrite in_flat_map. intros (d & _ & J). unfold escape_byte in J.
  destruct (should_escape m d) eqn:E.
  - destruct ((d =? 32) && _); [destruct J as [<-|[]]; lia|]. pose proof (hex_digit_not (d / 16)). pose proof (hex_digit_not (d mod 16)).
    destruct J as [<-|[<-|[<-|[]]]]; lia.
  - destruct J as [<-|[]]. congruence.
Qed.
Lemma escape_no2 m s : m <> EncFragment -> no2 (url_escape m s).
Proof. intros M. split; apply escape_not; auto; destruct m; reflexivity || congruence. Qed.
Lemma escaped_path_no2 r v : no2 (escaped_part EncPath r v).
Proof.
  unfold escaped_part. destruct (negb (is_empty r) && valid_encoded EncPath r && _) eqn:E.
  - apply andb_prop in E as [E _]. apply andb_prop in E as [_ E]. unfold valid_encoded in E. rewrite forallb_forall in E.
    split; intros I; apply E in I; vm_compute in I; discriminate.
  - destruct (beqb v (b "*")); [|now apply escape_no2]. apply no2_cons; [vm_compute; discriminate..|apply no2_nil].
Qed.
Definition parted (u : url) : Prop := no2 (u_scheme u) /\ no2 (u_opaque u) /\ ~ In 35 (u_raw_query u).
Lemma user_string_no2 i : no2 (user_string i).
Proof.
  apply no2_app; [now apply escape_no2|]. destruct (snd i); [apply no2_cons; [lia..|now apply escape_no2]|apply no2_nil].
Qed.
Ltac two := repeat first [ apply user_string_no2 | apply no2_app | apply no2_cons; [lia..|] | apply no2_nil | (apply escape_no2; discriminate)
  | apply escaped_path_no2 | assumption ].
Lemma url_string_parts u : parted u -> exists h, no2 h /\ url_string u = h
  ++ (if u_force_query u || negb (is_empty (u_raw_query u)) then 63 :: u_raw_query u else [])
  ++ (if is_empty (u_fragment u) then [] else 35 :: escaped_fragment u).
Proof.
  intros (A & B & C). unfold url_string. cbv zeta. eexists. split; [|rewrite app_assoc; reflexivity].
  unfold escaped_path.
  repeat match goal with |- context [if ?x then _ else _] => destruct x end;
  repeat match goal with |- context [match u_user u with _ => _ end] => destruct (u_user u) end; two.
Qed.
Lemma url_string_query u : parted u -> query_of (url_string u) = u_raw_query u.
Proof.
  intros P. destruct (url_string_parts u P) as (h & [H1 H2] & ->). destruct P as (_ & _ & Q). unfold query_of.
  rewrite before_app by exact H1. rewrite after_app by exact H2.
  assert (F : before 35 (if is_empty (u_fragment u) then [] else 35 :: escaped_fragment u) = []) by (destruct (is_empty (u_fragment u)); reflexivity).
  destruct (u_force_query u || negb (is_empty (u_raw_query u))) eqn:E.
  - change ((63 :: u_raw_query u) ++ ?x) with (63 :: (u_raw_query u ++ x)). cbn [before]. change (63 =? 35) with false. cbn iota.
    rewrite before_app, F, app_nil_r by exact Q. reflexivity.
  - cbn [app]. rewrite F. cbn. destruct (u_raw_query u); [reflexivity|]. apply orb_false_iff in E as [_ E]. discriminate.
Qed.

(** ** Parsing *)
Lemma set_path_parted p u u' : set_path p u = Some u' -> parted u -> parted u' /\ u_raw_query u' = u_raw_query u.
Proof. unfold set_path. destruct (url_unescape EncPath p); [|discriminate]. intros [= <-] H. split; [exact H|reflexivity]. Qed.
Lemma to_lower_no2 s : no2 s -> no2 (to_lower s).
Proof.
  intros [A B]. split; unfold to_lower; rewrite in_map_iff; intros (d & E & I); unfold in_range in E;
  destruct ((65 <=? d) && (d <=? 90)) eqn:L; [lia|subst; auto|lia|subst; auto].
Qed.
Lemma scheme_len_no2 s : forall i k, scheme_len i s = Some (Some k) -> (i <= k)%nat /\ no2 (firstn (k - i) s) /\
  nth_error s (k - i) = Some 58.
Proof.
  induction s as [|c s IH]; intros i k; [discriminate|]. cbn [scheme_len].
  assert (G : (c <> 35 /\ c <> 63) -> scheme_len (S i) s = Some (Some k) ->
    (i <= k)%nat /\ no2 (firstn (k - i) (c :: s)) /\ nth_error (c :: s) (k - i) = Some 58).
  { intros C H. apply IH in H as (L & N & E). replace (k - i)%nat with (S (k - S i))%nat by lia. cbn [firstn nth_error].
    split; [lia|]. split; [|exact E]. apply no2_cons; tauto. }
  destruct (is_letter c) eqn:L; [apply G; unfold is_letter, in_range in L; lia|].
  destruct (is_digit c || byte_in (b "+-.") c) eqn:D.
  - destruct i; [discriminate|]. apply G. split; intros ->; vm_compute in D; discriminate.
  - destruct (N.eqb_spec c 58); [|discriminate]. destruct i; [discriminate|]. intros [= <-]. rewrite Nat.sub_diag.
    split; [lia|]. split; [apply no2_nil|]. cbn. now subst.
Qed.
Lemma count_one c s : count_byte c s = 1%nat -> has_suffix [c] s = true -> exists r, s = r ++ [c] /\ ~ In c r.
Proof.
  intros N H. apply has_suffix_iff in H as [r ->]. exists r. split; [reflexivity|]. intros I.
  apply in_split in I as (x & y & ->). enough (2 <= count_byte c ((x ++ c :: y) ++ [c]))%nat by lia.
  assert (A : forall p q, count_byte c (p ++ q) = (count_byte c p + count_byte c q)%nat).
  { clear. induction p as [|d p IH]; intros q; [reflexivity|]. cbn [app count_byte]. rewrite IH. destruct (c =? d); lia. }
  rewrite !A. cbn [count_byte]. rewrite N.eqb_refl. lia.
Qed.
Lemma nth_error_split_at (s : bytes) k c : nth_error s k = Some c -> s = firstn k s ++ c :: skipn (S k) s.
Proof.
  revert k. induction s as [|d s IH]; intros [|k]; cbn; try discriminate; [now intros [= ->]|].
  intros H. f_equal. now apply IH.
Qed.
Lemma parse_no_fragment_parted raw u : ~ In 35 raw -> parse_no_fragment raw = Some u -> parted u /\ u_raw_query u = after 63 raw.
Proof.
  intros H35. unfold parse_no_fragment. destruct (existsb is_ctl raw) eqn:E; [discriminate|].
  destruct (beqb raw (b "*")) eqn:EB.
  { apply beqb_eq in EB. subst. intros [= <-]. repeat split; cbn; intuition discriminate. }
  unfold get_scheme. destruct (scheme_len O raw) as [k|] eqn:SL; [|discriminate].
  assert (G : forall sch rest, no2 sch -> ~ In 35 rest -> after 63 raw = after 63 rest ->
    (let scheme := to_lower sch in
      let force := has_suffix [63] rest && Nat.eqb (count_byte 63 rest) 1 in
      let '(rest, query) := if force then (removelast rest, []) else cut 63 rest in
      let mk opaque user host omit := {|
        u_scheme := scheme; u_opaque := opaque; u_user := user; u_host := host; u_path := []; u_raw_path := [];
        u_omit_host := omit; u_force_query := force; u_raw_query := query; u_fragment := []; u_raw_fragment := [] |} in
      if negb (has_prefix [47] rest) && negb (is_empty scheme) then Some (mk rest None [] false)
      else if negb (has_prefix [47] rest) && contains_byte 58 (fst (cut 47 rest)) then None
      else if (negb (is_empty scheme) || negb (has_prefix (b "///") rest)) && has_prefix (b "//") rest then
        let auth := skipn 2 rest in
        let '(auth, path) := match cut_at 47 auth with Some (x, y) => (x, 47 :: y) | None => (auth, []) end in
        match parse_authority auth with
        | None => None
        | Some (user, host) => set_path path (mk [] user host false)
        end
      else set_path rest (mk [] None [] (negb (is_empty scheme) && has_prefix [47] rest))) = Some u ->
    parted u /\ u_raw_query u = after 63 raw).
  { intros sch rest Hs Hr HA. cbv zeta.
    destruct (if has_suffix [63] rest && Nat.eqb (count_byte 63 rest) 1 then (removelast rest, []) else cut 63 rest) as [r q] eqn:Q.
    assert (Hq : no2 r /\ ~ In 35 q /\ q = after 63 raw).
    { rewrite HA. destruct (has_suffix [63] rest && Nat.eqb (count_byte 63 rest) 1) eqn:F.
      - apply andb_prop in F as [F1 F2]. apply Nat.eqb_eq in F2. destruct (count_one _ _ F2 F1) as (r0 & -> & N0).
        rewrite removelast_last in Q. injection Q as <- <-. split; [split; [|exact N0]|].
        + intros I. apply Hr, in_or_app. now left.
        + split; [easy|]. rewrite after_app by exact N0. reflexivity.
      - rewrite after_cut, Q. apply cut_sub in Q as Q'. destruct Q' as [Q1 Q2]. split; [|split; [auto|reflexivity]].
        split; [auto|]. unfold cut in Q. destruct (cut_at 63 rest) as [[x y]|] eqn:X.
        + injection Q as <- <-. now apply cut_at_eq in X as [_ X].
        + injection Q as <- <-. now apply cut_at_none in X. }
    destruct Hq as (H1 & H2 & H3). rewrite <- H3. assert (H4 := to_lower_no2 _ Hs).
    destruct (negb (has_prefix [47] r) && negb (is_empty (to_lower sch))); [intros [= <-]; split; [|reflexivity]; split; [|split]; assumption|].
    destruct (negb (has_prefix [47] r) && contains_byte 58 (fst (cut 47 r))); [discriminate|].
    destruct ((negb (is_empty (to_lower sch)) || negb (has_prefix (b "///") r)) && has_prefix (b "//") r).
    - destruct (match cut_at 47 (skipn 2 r) with Some (x, y) => (x, 47 :: y) | None => (skipn 2 r, []) end) as [au pa].
      destruct (parse_authority au) as [[us ho]|]; [|discriminate].
      intros H. apply set_path_parted in H; [exact H|]. split; [|split]; [assumption|apply no2_nil|assumption].
    - intros H. apply set_path_parted in H; [exact H|]. split; [|split]; [assumption|apply no2_nil|assumption]. }
  destruct k as [i|].
  - apply scheme_len_no2 in SL as (_ & N2 & NE). rewrite Nat.sub_0_r in N2, NE. apply G; [exact N2| |].
    + intros I. apply skipn_In in I. auto.
    + rewrite (nth_error_split_at _ _ _ NE) at 1. rewrite after_app by apply N2. reflexivity.
  - apply G; [apply no2_nil|exact H35|reflexivity].
Qed.
Lemma url_parse_parted raw u : url_parse raw = Some u -> parted u /\ u_raw_query u = query_of raw.
Proof.
  unfold url_parse, query_of. rewrite before_cut. destruct (cut 35 raw) as [r f] eqn:C. cbn [fst].
  assert (N : ~ In 35 r).
  { unfold cut in C. destruct (cut_at 35 raw) as [[x y]|] eqn:X; injection C as <- <-; [now apply cut_at_eq in X as [_ X]|now apply cut_at_none in X]. }
  destruct (parse_no_fragment r) as [x|] eqn:E; [|discriminate].
  apply parse_no_fragment_parted in E; [|exact N]. destruct (is_empty f); [now intros [= <-]|].
  unfold set_fragment. destruct (url_unescape EncFragment f); [|discriminate]. intros [= <-]. exact E.
Qed.
Lemma base_parted domain base : parse_base_domain go_url domain = Some base -> parted base.
Proof.
  unfold parse_base_domain, parse_with_host. cbn [op_parse op_host go_url url_t].
  destruct (is_empty domain); [discriminate|]. destruct (url_parse domain) as [u|] eqn:E.
  - destruct (is_empty (u_host u)).
    + destruct (url_parse (b "http://" ++ domain)) as [v|] eqn:F; [|discriminate]. destruct (is_empty (u_host v)); [discriminate|].
      intros [= <-]. now apply url_parse_parted in F.
    + intros [= <-]. now apply url_parse_parted in E.
  - destruct (url_parse (b "http://" ++ domain)) as [v|] eqn:F; [|discriminate]. destruct (is_empty (u_host v)); [discriminate|].
    intros [= <-]. now apply url_parse_parted in F.
Qed.
Lemma or_same_parted p u : parted u -> parted (or_same (set_path p u) u) /\ u_raw_query (or_same (set_path p u) u) = u_raw_query u.
Proof. intros H. destruct (set_path p u) eqn:E; [|split; [exact H|reflexivity]]. now apply set_path_parted in E. Qed.
Lemma resolve_parted base u : parted base -> parted u -> u_raw_query u <> [] ->
  parted (resolve_reference base u) /\ u_raw_query (resolve_reference base u) = u_raw_query u.
Proof.
  intros (A & B & C) (A' & B' & C') NE. unfold resolve_reference. cbv zeta.
  destruct (negb (is_empty (u_scheme u)) || negb (is_empty (u_host u)) || is_some (u_user u)).
  - match goal with |- parted (or_same (set_path ?p ?v) ?v) /\ _ => destruct (or_same_parted p v) as [X Y]; [|split; [exact X|exact Y]] end.
    repeat split; cbn; auto; destruct (is_empty (u_scheme u)); try apply A; try apply A'; apply B'.
  - destruct (negb (is_empty (u_opaque u))).
    + split; [|reflexivity]. repeat split; cbn; auto; destruct (is_empty (u_scheme u)); try apply A; try apply A'; apply B'.
    + assert (F : is_empty (u_path u) && negb (u_force_query u) && is_empty (u_raw_query u) = false).
      { destruct (u_raw_query u); [easy|]. now rewrite andb_false_r. }
      rewrite F. cbn [andb]. match goal with |- parted (or_same (set_path ?p ?v) ?v) /\ _ => destruct (or_same_parted p v) as [X Y]; [|split; [exact X|exact Y]] end.
    repeat split; cbn; auto; destruct (is_empty (u_scheme u)); try apply A; try apply A'; apply B'.
Qed.

(** ** The query through the replacement *)
Lemma percent_not c d : d = 35 \/ d = 63 -> In d (percent_byte c) -> c = d /\ percent_byte c = [d].
Proof.
  intros D I. destruct (percent_byte_eq c) as (x & E & [-> |(h & l & -> & _ & a & v & Ha & Hv & _)]); rewrite E in I |- *.
  - destruct I as [->|[]]. auto.
  - unfold hex_value in *. destruct I as [I|[I|[I|[]]]]; lia.
Qed.
Lemma percent_before d s : d = 35 \/ d = 63 -> before d (percent_replace s) = percent_replace (before d s).
Proof.
  intros D. induction s as [|c s IH]; [reflexivity|]. unfold percent_replace in *. cbn [before flat_map].
  destruct (N.eqb_spec c d) as [->|N].
  - replace (percent_byte d) with [d] by (destruct D as [->| ->]; reflexivity). cbn. now rewrite N.eqb_refl.
  - rewrite before_app, IH; [reflexivity|]. intros I. apply percent_not in I; [tauto|exact D].
Qed.
Lemma percent_after d s : d = 35 \/ d = 63 -> after d (percent_replace s) = percent_replace (after d s).
Proof.
  intros D. induction s as [|c s IH]; [reflexivity|]. unfold percent_replace in *. cbn [after flat_map].
  destruct (N.eqb_spec c d) as [->|N].
  - replace (percent_byte d) with [d] by (destruct D as [->| ->]; reflexivity). cbn. now rewrite N.eqb_refl.
  - rewrite after_app, IH; [reflexivity|]. intros I. apply percent_not in I; [tauto|exact D].
Qed.
Lemma percent_query s : query_of (percent_replace s) = percent_replace (query_of s).
Proof. unfold query_of. rewrite percent_before, percent_after by auto. reflexivity. Qed.
Lemma percent_app x y : percent_replace (x ++ y) = percent_replace x ++ percent_replace y.
Proof. apply flat_map_app. Qed.
Lemma percent_join l : percent_replace (join [38] l) = join [38] (map percent_replace l).
Proof.
  induction l as [|x l IH]; [reflexivity|]. destruct l as [|y l]; [reflexivity|]. cbn [map]. rewrite !join_cons by easy.
  rewrite !percent_app, IH. reflexivity.
Qed.
Lemma percent_in_back s c : c <> 37 -> ~ (48 <= c <= 57) -> ~ (65 <= c <= 70) -> In c (percent_replace s) -> In c s.
Proof. intros A B C I. apply percent_in in I as [[I|I] _]; [exact I|lia]. Qed.
Lemma stands_spells s t : ~ In 43 s -> stands_for s t <-> spells s t.
Proof.
  intros N. split.
  - intros H. induction H as [|s t H IH|h l x y s t Hx Hy H IH|c s t N1 N2 H IH]; [constructor| | |].
    + elim N. now left.
    + constructor; auto. apply IH. intros I. apply N. right. right. now right.
    + constructor; auto. apply IH. intros I. apply N. now right.
  - intros H. induction H as [|h l x y s t Hx Hy H IH|c s t N1 H IH]; [constructor| |].
    + constructor; auto. apply IH. intros I. apply N. right. right. now right.
    + constructor; auto; [intros ->; apply N; now left|]. apply IH. intros I. apply N. now right.
Qed.
Lemma same_percent s : ~ In 43 s -> same_meaning s (percent_replace s).
Proof.
  intros N t. rewrite stands_spells by exact N. rewrite stands_spells; [apply percent_keeps|].
  intros I. apply N. eapply percent_in_back; [..|exact I]; lia.
Qed.
Lemma same_param_percent p q : ~ In 43 q -> same_param p q -> same_param p (percent_replace q).
Proof.
  intros N. inversion 1 as [k k' A B M|k v k' v' A B M M']; subst.
  - constructor; [exact A| |].
    + intros I. apply B. eapply percent_in_back; [..|exact I]; lia.
    + eapply same_trans; [exact M|]. now apply same_percent.
  - rewrite !percent_app. change (percent_replace [61]) with [61]. constructor; [exact A| | |].
    + intros I. apply B. eapply percent_in_back; [..|exact I]; lia.
    + eapply same_trans; [exact M|]. apply same_percent. intros I. apply N, in_or_app. now left.
    + eapply same_trans; [exact M'|]. apply same_percent. intros I. apply N, in_or_app. right. now right.
Qed.
Lemma spaced_no43 s : ~ In 43 (spaced s).
Proof. intros I. apply replace_one_in in I as [[_ I]|I]; [auto|]. cbn in I. lia. Qed.
Lemma dae_empty s : decode_and_encode go_url s = [] -> s = [].
Proof.
  unfold decode_and_encode. cbn [op_query_unescape op_query_escape go_url]. destruct (query_unescape s) as [v|] eqn:E; [|auto].
  apply unescape_stands in E. intros H. destruct E as [|? ? ?|? ? ? ? ? ? ? ? ?|c s t ? ? ?]; [reflexivity|..]; exfalso; revert H;
  unfold query_escape, url_escape; cbn [flat_map]; unfold escape_byte at 1;
  match goal with |- context [should_escape EncQuery ?c] => destruct (should_escape EncQuery c) end; try discriminate;
  match goal with |- context [?c =? 32] => destruct (c =? 32) end; discriminate.
Qed.
Lemma encoded_nonempty q : q <> [] -> spaced (parse_and_encode_query go_url q) <> [].
Proof.
  intros N. unfold parse_and_encode_query. destruct q as [|c q]; [easy|]. cbn [is_empty]. clear N.
  assert (S : forall s, spaced s = [] -> s = []).
  { intros s. rewrite spaced_eq. destruct s as [|d s]; [reflexivity|]. cbn [flat_map]. destruct (d =? 43); discriminate. }
  intros H. apply S in H. assert (J := split_join 38 (c :: q)). destruct (split_on 38 (c :: q)) as [|x l]; [discriminate|].
  destruct l as [|y l].
  - cbn in H, J. subst x. unfold encode_part in H. destruct (cut_at 61 (c :: q)) as [[k v]|].
    + destruct (is_empty v); apply app_eq_nil in H as [_ H]; discriminate.
    + apply dae_empty in H. discriminate.
  - cbn [map] in H. rewrite join_cons in H by easy. apply app_eq_nil in H as [_ H]. discriminate.
Qed.
Lemma encoded_no35 q : ~ In 35 q -> ~ In 35 (spaced (parse_and_encode_query go_url q)).
Proof.
  intros N I. apply spaced_in in I; [|lia..]. revert I. unfold parse_and_encode_query. destruct (is_empty q); [easy|].
  assert (D : forall s, ~ In 35 s -> ~ In 35 (decode_and_encode go_url s)).
  { intros s M. unfold decode_and_encode. cbn [op_query_unescape op_query_escape go_url]. destruct (query_unescape s); [|exact M].
    apply escape_not; auto. }
  assert (E : forall p, ~ In 35 p -> ~ In 35 (encode_part go_url p)).
  { intros p M. unfold encode_part. destruct (cut_at 61 p) as [[k v]|] eqn:X; [|now apply D].
    apply cut_at_eq in X as [-> _]. rewrite !in_app_iff in M. destruct (is_empty v); rewrite !in_app_iff; cbn;
    intros I; repeat destruct I as [I|I]; try lia; [now apply D in I; tauto|now apply D in I; tauto|now apply D in I; tauto]. }
  assert (J : forall l, (forall p, In p l -> ~ In 35 p) -> ~ In 35 (join [38] l)).
  { induction l as [|x l IH]; intros H; [easy|]. destruct l as [|y l]; [apply H; now left|]. rewrite join_cons by easy.
    rewrite !in_app_iff. intros [I|[I|I]]; [revert I; apply H; now left|cbn in I; lia|]. revert I. apply IH. intros p Hp. apply H. now right. }
  apply J. intros p. rewrite in_map_iff. intros (x & <- & I). apply E. intros K. apply N. eapply split_sub; eauto.
Qed.
Lemma prepared_small raw : (forall c, In c raw -> c < 256) -> forall c, In c (prepared_raw raw) -> c < 256.
Proof.
  intros S c I. unfold prepared_raw in I. apply replace_one_in in I as [[I _]|I]; [|cbn in I; lia].
  apply replace_one_in in I as [[I _]|I]; [|cbn in I; lia]. apply S. destruct (trim_space_infix raw) as (l & r & ->).
  apply in_or_app. right. apply in_or_app. now left.
Qed.
Lemma query_of_in s c : In c (query_of s) -> In c s.
Proof.
  unfold query_of. rewrite after_cut, before_cut. destruct (cut 35 s) as [x y] eqn:E. cbn [fst].
  destruct (cut 63 x) as [x' y'] eqn:F. cbn [snd]. apply cut_sub in E, F. intros I. apply (proj1 E), (proj2 F), I.
Qed.
Lemma destination_query domain raw u : (forall c, In c raw -> c < 256) ->
  url_parse (prepared_raw raw) = Some u -> u_scheme u <> b "data" -> query_of (prepared_raw raw) <> [] ->
  exists ps ps', query_of (prepared_raw raw) = join [38] ps /\ no_amp ps /\
    query_of (assemble_absolute_url go_url domain raw) = join [38] ps' /\ no_amp ps' /\ Forall2 same_param ps ps'.
Proof.
  intros S P D NE. assert (Q := url_parse_parted _ _ P). destruct Q as [Q1 Q2].
  set (q := spaced (parse_and_encode_query go_url (query_of (prepared_raw raw)))).
  assert (O : query_of (assemble_absolute_url go_url domain raw) = percent_replace q).
  { rewrite assemble_eq. destruct (beqb (trim_space raw) [35]) eqn:T.
    { apply beqb_eq in T. unfold prepared_raw in NE. rewrite T in NE. now elim NE. }
    cbn [op_parse op_scheme op_query op_set_query op_resolve op_string go_url url_t]. rewrite P.
    destruct (beqb (u_scheme u) (b "data")) eqn:X; [now apply beqb_eq in X|]. cbv zeta. rewrite percent_query. f_equal.
    rewrite Q2. fold (spaced (parse_and_encode_query go_url (query_of (prepared_raw raw)))). fold q.
    assert (W : parted (with_query q u)).
    { destruct Q1 as (A & B & C). split; [exact A|]. split; [exact B|]. apply encoded_no35. rewrite <- Q2. exact C. }
    assert (R : forall v, parted v /\ u_raw_query v = q -> query_of (url_string v) = q).
    { intros v [V1 V2]. rewrite url_string_query by exact V1. exact V2. }
    destruct (parse_base_domain go_url domain) as [base|] eqn:F; apply R.
    - apply base_parted in F. apply (resolve_parted base (with_query q u)); auto. now apply encoded_nonempty.
    - split; [exact W|reflexivity]. }
  destruct (query_same (query_of (prepared_raw raw))) as (ps & ps' & E1 & A1 & E2 & A2 & F2).
  { intros c I. apply (prepared_small raw S). now apply query_of_in. }
  exists ps, (map percent_replace ps'). split; [exact E1|]. split; [exact A1|]. split; [|split].
  - rewrite O. unfold q, spaced. rewrite E2. apply percent_join.
  - intros p. rewrite in_map_iff. intros (r & <- & I) J. apply (A2 r I). eapply percent_in_back; [..|exact J]; lia.
  - assert (N43 : forall p, In p ps' -> ~ In 43 p).
    { intros p I J. apply (spaced_no43 (parse_and_encode_query go_url (query_of (prepared_raw raw)))). unfold spaced. rewrite E2.
      clear -I J. induction ps' as [|x l IH]; [easy|]. destruct l as [|y l]; [destruct I as [->|[]]; exact J|].
      rewrite join_cons by easy. apply in_or_app. destruct I as [->|I]; [now left|]. right. right. now apply IH. }
    clear -F2 N43. induction F2 as [|p p' l l' H H' IH]; cbn [map]; constructor.
    + apply same_param_percent; [apply N43; now left|exact H].
    + apply IH. intros r I. apply N43. now right.
Qed.
