(** Proofs about converter/url.go (C26-C28, C51). *)
From Coq Require Import List NArith Arith Bool Lia ZifyBool ZifyNat ZifyN String.
From Verif Require Import Bytes NetUrl Url SpecText SpecUrl BytesFacts TextUtils RenderText RenderFacts3 PanicFacts.
Import ListNotations.
Open Scope N_scope.
Open Scope list_scope.

(** ** No breaking out *)
Lemma percent_byte_ok c : (c = 32 \/ c = 91 \/ c = 93 \/ c = 40 \/ c = 41 \/ c = 60 \/ c = 62) \/ percent_byte c = [c].
Proof.
  unfold percent_byte. destruct (N.eqb_spec c 32); [lia|]. destruct (N.eqb_spec c 91); [lia|]. destruct (N.eqb_spec c 93); [lia|].
  destruct (N.eqb_spec c 40); [lia|]. destruct (N.eqb_spec c 41); [lia|]. destruct (N.eqb_spec c 60); [lia|].
  destruct (N.eqb_spec c 62); [lia|]. now right.
Qed.
Lemma percent_byte_in c d : In d (percent_byte c) ->
  (d = c \/ d = 37 \/ 48 <= d <= 57 \/ 65 <= d <= 70) /\ ~ In d [32; 60; 62; 40; 41; 91; 93].
Proof.
  unfold percent_byte.
  destruct (N.eqb_spec c 32); [subst; cbn; intros; lia|]. destruct (N.eqb_spec c 91); [subst; cbn; intros; lia|].
  destruct (N.eqb_spec c 93); [subst; cbn; intros; lia|].
  destruct (N.eqb_spec c 40); [subst; cbn; intros; lia|]. destruct (N.eqb_spec c 41); [subst; cbn; intros; lia|].
  destruct (N.eqb_spec c 60); [subst; cbn; intros; lia|].
  destruct (N.eqb_spec c 62); [subst; cbn; intros; lia|]. cbn. intros; lia.
Qed.
Lemma percent_in s d : In d (percent_replace s) ->
  (In d s \/ d = 37 \/ 48 <= d <= 57 \/ 65 <= d <= 70) /\ ~ In d [32; 60; 62; 40; 41; 91; 93].
Proof.
  unfold percent_replace. rewrite in_flat_map. intros (c & I & J). apply percent_byte_in in J as ([->|J] & N); auto.
Qed.

Lemma replace_one c new s : replace_all [c] new s = flat_map (fun x => if x =? c then new else [x]) s.
Proof.
  apply (replace_ind [c] new (fun s o => o = flat_map (fun x => if x =? c then new else [x]) s)); [easy|reflexivity|..].
  - intros r o ->. cbn [app flat_map]. now rewrite N.eqb_refl.
  - intros d t o P ->. cbn [flat_map]. cbn [has_prefix] in P. rewrite andb_true_r in P. rewrite N.eqb_sym in P. now rewrite P.
Qed.
Lemma replace_one_in c new s d : In d (replace_all [c] new s) -> (In d s /\ d <> c) \/ In d new.
Proof.
  rewrite replace_one, in_flat_map. intros (x & I & J). destruct (N.eqb_spec x c); [now right|].
  destruct J as [->|[]]. left. split; auto.
Qed.
Definition prepared_raw (raw : bytes) : bytes :=
  replace_all [cTAB] (b "%09") (replace_all [cNL] (b "%0A") (trim_space raw)).
Lemma prepared_raw_in raw c : In c (prepared_raw raw) -> c <> 10 /\ c <> 9.
Proof.
  unfold prepared_raw. intros H. apply replace_one_in in H as [[H N]|H]; [|cbn in H; lia].
  split; [|exact N]. apply replace_one_in in H as [[H M]|H]; [exact M|cbn in H; lia].
Qed.
Lemma assemble_eq ops domain raw : assemble_absolute_url ops domain raw =
  if beqb (trim_space raw) [35] then trim_space raw
  else match op_parse ops (prepared_raw raw) with
       | None => percent_replace (prepared_raw raw)
       | Some u => if beqb (op_scheme ops u) (b "data") then percent_replace (prepared_raw raw)
                   else let q := replace_all [43] (b "%20") (parse_and_encode_query ops (op_query ops u)) in
                        let u := op_set_query ops q u in
                        percent_replace (op_string ops
                          (match parse_base_domain ops domain with Some base => op_resolve ops base u | None => u end))
       end.
Proof. reflexivity. Qed.

(** For any implementation of net/url *)
Lemma assemble_brackets ops domain raw c : In c (assemble_absolute_url ops domain raw) -> ~ In c [32; 60; 62; 40; 41; 91; 93].
Proof.
  rewrite assemble_eq. destruct (beqb (trim_space raw) [35]) eqn:E.
  - apply beqb_eq in E. rewrite E. cbn. lia.
  - destruct (op_parse ops (prepared_raw raw)) as [u|]; [|now intros H%percent_in].
    destruct (beqb (op_scheme ops u) (b "data")); cbv zeta; now intros H%percent_in.
Qed.

(** ** net/url writes no control characters *)
Definition low (c : N) : bool := c <? 32.
Definition no_low (s : bytes) : Prop := forall c, In c s -> 32 <= c.
Lemma no_low_app x y : no_low x -> no_low y -> no_low (x ++ y).
Proof. intros A B c I. apply in_app_iff in I as [I|I]; auto. Qed.
Lemma no_low_cons c x : 32 <= c -> no_low x -> no_low (c :: x).
Proof. intros A B d [->|I]; auto. Qed.
Lemma no_low_nil : no_low []. Proof. intros c []. Qed.
Lemma no_low_sub x y : no_low y -> (forall c, In c x -> In c y) -> no_low x.
Proof. intros A B c I. apply A; auto. Qed.
Lemma should_escape_low m c : should_escape m c = false -> 32 <= c.
Proof.
  intros H. destruct (N.leb_spec 32 c); [assumption|]. exfalso. revert H.
  assert (L : c < 32) by lia. unfold should_escape.
  assert (E : forall l, forallb (N.leb 32) l = true -> byte_in l c = false).
  { intros l Hl. unfold byte_in. destruct (existsb (N.eqb c) l) eqn:X; [|reflexivity]. apply existsb_exists in X as (d & I & D).
    apply N.eqb_eq in D. subst d. rewrite forallb_forall in Hl. apply Hl in I. apply N.leb_le in I. lia. }
  rewrite !E by (vm_compute; reflexivity). rewrite !andb_false_r.
  assert (A : is_letter c || is_digit c = false) by (unfold is_letter, is_digit, in_range; lia). now rewrite A.
Qed.
Lemma hex_digit_low n : 32 <= hex_digit n. Proof. unfold hex_digit. destruct (n <? 10); lia. Qed.
Lemma escape_no_low m s : no_low (url_escape m s).
Proof.
  intros c. unfold url_escape. rewrite in_flat_map. intros (d & _ & J). unfold escape_byte in J.
  destruct (should_escape m d) eqn:E.
  - destruct ((d =? 32) && _); [destruct J as [<-|[]]; lia|].
    destruct J as [<-|[<-|[<-|[]]]]; [lia|apply hex_digit_low..].
  - destruct J as [<-|[]]. now apply should_escape_low in E.
Qed.
Lemma valid_encoded_low m s : valid_encoded m s = true -> no_low s.
Proof.
  unfold valid_encoded. rewrite forallb_forall. intros H c I. apply H in I. apply orb_true_iff in I as [I|I].
  - unfold byte_in in I. apply existsb_exists in I as (d & J & D). apply N.eqb_eq in D. subst d. revert J. generalize c. apply Forall_forall. repeat constructor; vm_compute; discriminate.
  - apply negb_true_iff in I. now apply should_escape_low in I.
Qed.
Lemma escaped_part_low m r v : no_low (escaped_part m r v).
Proof.
  unfold escaped_part. destruct (negb (is_empty r) && valid_encoded m r && _) eqn:E.
  - apply andb_prop in E as [E _]. apply andb_prop in E as [_ E]. now apply valid_encoded_low in E.
  - destruct (beqb v (b "*")); [|apply escape_no_low]. intros c [<-|[]]. vm_compute. discriminate.
Qed.
Definition plain_url (u : url) : Prop := no_low (u_scheme u) /\ no_low (u_opaque u) /\ no_low (u_raw_query u).
Lemma user_string_low i : no_low (user_string i).
Proof. apply no_low_app; [apply escape_no_low|]. destruct (snd i); [apply no_low_cons; [lia|apply escape_no_low]|apply no_low_nil]. Qed.
Ltac low := repeat first [ apply user_string_low | apply no_low_app | apply no_low_cons; [lia|] | apply no_low_nil | apply escape_no_low | apply user_string_low
  | apply escaped_part_low | assumption ].
Lemma url_string_low u : plain_url u -> no_low (url_string u).
Proof.
  intros (A & B & C). unfold url_string, escaped_path, escaped_fragment. cbv zeta.
  repeat match goal with |- context [if ?x then _ else _] => destruct x end;
  repeat match goal with |- context [match u_user u with _ => _ end] => destruct (u_user u) end; low.
Qed.
Lemma set_path_low p u u' : set_path p u = Some u' -> plain_url u -> plain_url u'.
Proof. unfold set_path. destruct (url_unescape EncPath p); [|discriminate]. intros [= <-] H. exact H. Qed.
Lemma set_fragment_low p u u' : set_fragment p u = Some u' -> plain_url u -> plain_url u'.
Proof. unfold set_fragment. destruct (url_unescape EncFragment p); [|discriminate]. intros [= <-] H. exact H. Qed.
Lemma to_lower_low s : no_low s -> no_low (to_lower s).
Proof. intros H c. unfold to_lower. rewrite in_map_iff. intros (d & <- & I). apply H in I. destruct (in_range 65 90 d); lia. Qed.
Lemma cut_at_eq sep s x y : cut_at sep s = Some (x, y) -> s = x ++ [sep] ++ y /\ ~ In sep x.
Proof.
  revert x y. induction s as [|c s IH]; [discriminate|]. intros x y. cbn. destruct (N.eqb_spec c sep).
  - intros [= <- <-]. subst. split; [reflexivity|easy].
  - destruct (cut_at sep s) as [[x' y']|]; [|discriminate]. intros [= <- <-]. destruct (IH _ _ eq_refl) as [-> N].
    split; [reflexivity|]. intros [H|H]; auto.
Qed.
Lemma cut_at_none sep s : cut_at sep s = None -> ~ In sep s.
Proof.
  induction s as [|c s IH]; [easy|]. cbn. destruct (N.eqb_spec c sep); [discriminate|].
  destruct (cut_at sep s) as [[x' y']|]; [discriminate|]. intros _ [H|H]; auto. now apply IH.
Qed.
Lemma cut_sub sep s x y : cut sep s = (x, y) -> (forall c, In c x -> In c s) /\ (forall c, In c y -> In c s).
Proof.
  unfold cut. destruct (cut_at sep s) as [[x' y']|] eqn:E.
  - intros [= <- <-]. apply cut_at_eq in E as [-> _]. split; intros c I; rewrite !in_app_iff; auto.
  - intros [= <- <-]. split; [auto|easy].
Qed.
Lemma firstn_In {A} n (l : list A) x : In x (firstn n l) -> In x l.
Proof. intros H. rewrite <- (firstn_skipn n l). apply in_or_app. now left. Qed.
Lemma skipn_In {A} n (l : list A) x : In x (skipn n l) -> In x l.
Proof. intros H. rewrite <- (firstn_skipn n l). apply in_or_app. now right. Qed.
Lemma removelast_In {A} (l : list A) x : In x (removelast l) -> In x l.
Proof.
  induction l as [|y l IH]; [easy|]. cbn. destruct l; [easy|]. intros [H|H]; auto.
Qed.
Lemma parse_no_fragment_low raw u : parse_no_fragment raw = Some u -> no_low raw /\ plain_url u.
Proof.
  unfold parse_no_fragment. destruct (existsb is_ctl raw) eqn:E; [discriminate|].
  assert (L : no_low raw).
  { intros c I. destruct (N.leb_spec 32 c); [assumption|]. exfalso. enough (X : existsb is_ctl raw = true) by congruence.
    apply existsb_exists. exists c. split; [exact I|]. unfold is_ctl. lia. }
  intros H. split; [exact L|]. revert H.
  destruct (beqb raw (b "*")); [intros [= <-]; repeat split; intros c []|].
  unfold get_scheme. destruct (scheme_len O raw) as [k|]; [|discriminate].
  assert (G : forall sch rest, no_low sch -> no_low rest ->
    (let scheme := to_lower sch in
      let force := has_suffix [63] rest && Nat.eqb (count_byte 63 rest) 1 in
      let '(rest, query) := if force then (removelast rest, []) else cut 63 rest in
      let mk opaque user host omit := {|
        u_scheme := scheme; u_opaque := opaque; u_user := user; u_host := host; u_path := []; u_raw_path := [];
        u_omit_host := omit; u_force_query := force; u_raw_query := query; u_fragment := []; u_raw_fragment := [] |} in
      if negb (has_prefix [47] rest) && negb (is_empty scheme) then Some (mk rest None [] false)
      else if negb (has_prefix [47] rest) && contains_byte 58 (fst (cut 47 rest)) then None
      else if (negb (is_empty scheme) || negb (has_prefix (b "///") rest)) && has_prefix (b "//") rest then
        let auth := skipn 2 rest in
        let '(auth, path) := match cut_at 47 auth with Some (x, y) => (x, 47 :: y) | None => (auth, []) end in
        match parse_authority auth with
        | None => None
        | Some (user, host) => set_path path (mk [] user host false)
        end
      else set_path rest (mk [] None [] (negb (is_empty scheme) && has_prefix [47] rest))) = Some u -> plain_url u).
  { intros sch rest Hs Hr. cbv zeta.
    destruct (if has_suffix [63] rest && Nat.eqb (count_byte 63 rest) 1 then (removelast rest, []) else cut 63 rest) as [r q] eqn:Q.
    assert (Hq : no_low r /\ no_low q).
    { destruct (has_suffix [63] rest && Nat.eqb (count_byte 63 rest) 1).
      - injection Q as <- <-. split; [|apply no_low_nil]. intros c I. apply Hr. now apply removelast_In.
      - apply cut_sub in Q as [Q1 Q2]. split; eapply no_low_sub; eauto. }
    destruct Hq as [H1 H2]. assert (H3 := to_lower_low _ Hs).
    destruct (negb (has_prefix [47] r) && negb (is_empty (to_lower sch))); [intros [= <-]; repeat split; assumption|].
    destruct (negb (has_prefix [47] r) && contains_byte 58 (fst (cut 47 r))); [discriminate|].
    destruct ((negb (is_empty (to_lower sch)) || negb (has_prefix (b "///") r)) && has_prefix (b "//") r).
    - destruct (match cut_at 47 (skipn 2 r) with Some (x, y) => (x, 47 :: y) | None => (skipn 2 r, []) end) as [au pa].
      destruct (parse_authority au) as [[us ho]|]; [|discriminate].
      intros H. apply set_path_low in H; [exact H|]. repeat split; try assumption. apply no_low_nil.
    - intros H. apply set_path_low in H; [exact H|]. repeat split; try assumption. apply no_low_nil. }
  destruct k as [i|].
  - apply G; intros c I; apply L; [now apply firstn_In in I|now apply skipn_In in I].
  - apply G; [apply no_low_nil|exact L].
Qed.
Lemma url_parse_low raw u : url_parse raw = Some u -> plain_url u.
Proof.
  unfold url_parse. destruct (cut 35 raw) as [r f]. destruct (parse_no_fragment r) as [x|] eqn:E; [|discriminate].
  apply parse_no_fragment_low in E as [_ E]. destruct (is_empty f); [now intros [= <-]|]. intros H. now apply set_fragment_low in H.
Qed.
Lemma base_low domain base : parse_base_domain go_url domain = Some base -> plain_url base.
Proof.
  unfold parse_base_domain, parse_with_host. cbn [op_parse op_host go_url url_t].
  destruct (is_empty domain); [discriminate|]. destruct (url_parse domain) as [u|] eqn:E.
  - destruct (is_empty (u_host u)).
    + destruct (url_parse (b "http://" ++ domain)) as [v|] eqn:F; [|discriminate]. destruct (is_empty (u_host v)); [discriminate|].
      intros [= <-]. now apply url_parse_low in F.
    + intros [= <-]. now apply url_parse_low in E.
  - destruct (url_parse (b "http://" ++ domain)) as [v|] eqn:F; [|discriminate]. destruct (is_empty (u_host v)); [discriminate|].
    intros [= <-]. now apply url_parse_low in F.
Qed.
Lemma or_same_low p u : plain_url u -> plain_url (or_same (set_path p u) u).
Proof. intros H. destruct (set_path p u) eqn:E; [|exact H]. now apply set_path_low in E. Qed.
Lemma resolve_low base u : plain_url base -> plain_url u -> plain_url (resolve_reference base u).
Proof.
  intros (A & B & C) (A' & B' & C'). unfold resolve_reference. cbv zeta.
  destruct (negb (is_empty (u_scheme u)) || negb (is_empty (u_host u)) || is_some (u_user u)).
  - apply or_same_low. repeat split; cbn; auto. now destruct (is_empty (u_scheme u)).
  - destruct (negb (is_empty (u_opaque u))).
    + repeat split; cbn; auto. now destruct (is_empty (u_scheme u)).
    + apply or_same_low. repeat split; cbn; auto; [now destruct (is_empty (u_scheme u))|].
      now destruct (is_empty (u_path u) && negb (u_force_query u) && is_empty (u_raw_query u)).
Qed.
Lemma join_low sep l : no_low sep -> (forall x, In x l -> no_low x) -> no_low (join sep l).
Proof.
  intros S. induction l as [|x l IH]; intros H; [apply no_low_nil|]. destruct l as [|y l].
  - cbn. apply H. now left.
  - rewrite join_cons by easy. apply no_low_app; [apply H; now left|]. apply no_low_app; [exact S|]. apply IH. intros z I. apply H. now right.
Qed.
Lemma dae_low s : no_low s -> no_low (decode_and_encode go_url s).
Proof.
  intros H. unfold decode_and_encode. cbn [op_query_unescape op_query_escape go_url]. destruct (query_unescape s); [apply escape_no_low|exact H].
Qed.
Lemma split_sub sep s l c : In l (split_on sep s) -> In c l -> In c s.
Proof.
  revert l. induction s as [|d s IH]; intros l; cbn.
  - intros [<-|[]] [].
  - destruct (N.eqb_spec d sep); cbn.
    + intros [<-|I] J; [destruct J|]. right. eapply IH; eauto.
    + destruct (split_on sep s) as [|x xs] eqn:E; [now elim (split_on_ne sep s)|]. intros [<-|I] J.
      * destruct J as [<-|J]; [now left|]. right. eapply IH; [|exact J]. now left.
      * right. eapply IH; [|exact J]. now right.
Qed.
Lemma encode_query_low q : no_low q -> no_low (replace_all [43] (b "%20") (parse_and_encode_query go_url q)).
Proof.
  intros H. assert (G : no_low (parse_and_encode_query go_url q)).
  { unfold parse_and_encode_query. destruct (is_empty q); [apply no_low_nil|]. apply join_low; [low|].
    intros x. rewrite in_map_iff. intros (p & <- & I). assert (P : no_low p) by (intros c J; apply H; eapply split_sub; eauto).
    unfold encode_part. destruct (cut_at 61 p) as [[k v]|] eqn:E; [|now apply dae_low].
    apply cut_at_eq in E as [-> _]. assert (K : no_low k) by (intros c J; apply P, in_or_app; now left).
    assert (V : no_low v) by (intros c J; apply P, in_or_app; right; now right).
    destruct (is_empty v); low; now apply dae_low. }
  intros c I. apply replace_one_in in I as [[I _]|I]; [now apply G|]. cbn in I. lia.
Qed.
Lemma assemble_parsed_low domain raw u : op_parse go_url (prepared_raw raw) = Some u -> beqb (trim_space raw) [35] = false ->
  op_scheme go_url u <> b "data" -> no_low (assemble_absolute_url go_url domain raw).
Proof.
  intros P E D c. rewrite assemble_eq, E, P. destruct (beqb (op_scheme go_url u) (b "data")) eqn:Q; [now apply beqb_eq in Q|].
  cbv zeta. intros I. apply percent_in in I as [[I|I] _]; [|lia]. revert c I.
  change (no_low (url_string (match parse_base_domain go_url domain with
    | Some base => resolve_reference base (with_query (replace_all [43] (b "%20") (parse_and_encode_query go_url (u_raw_query u))) u)
    | None => with_query (replace_all [43] (b "%20") (parse_and_encode_query go_url (u_raw_query u))) u end))).
  apply url_string_low. cbn [op_parse go_url] in P. apply url_parse_low in P as (A & B & C).
  assert (W : plain_url (with_query (replace_all [43] (b "%20") (parse_and_encode_query go_url (u_raw_query u))) u)).
  { repeat split; cbn; auto. now apply encode_query_low. }
  destruct (parse_base_domain go_url domain) as [base|] eqn:F; [|exact W]. apply resolve_low; [|exact W]. now apply base_low in F.
Qed.
Lemma assemble_no_breakout domain raw c : In c (assemble_absolute_url go_url domain raw) -> ~ breaks_out c.
Proof.
  intros I B. assert (N := assemble_brackets _ _ _ _ I). unfold breaks_out in B. cbn in B, N.
  assert (c = 10 \/ c = 9) by lia. clear N B. revert I. rewrite assemble_eq.
  destruct (beqb (trim_space raw) [35]) eqn:E; [apply beqb_eq in E; rewrite E; cbn; lia|].
  destruct (op_parse go_url (prepared_raw raw)) as [u|] eqn:P.
  - destruct (beqb (op_scheme go_url u) (b "data")) eqn:D.
    + intros I. apply percent_in in I as [[I|I] _]; [|lia]. apply prepared_raw_in in I. lia.
    + assert (L : no_low (assemble_absolute_url go_url domain raw)).
      { apply (assemble_parsed_low domain raw u); auto. intros X. rewrite X in D. now rewrite beqb_refl in D. }
      rewrite assemble_eq, E, P, D in L. cbv zeta. intros I. apply L in I. lia.
  - intros I. apply percent_in in I as [[I|I] _]; [|lia]. apply prepared_raw_in in I. lia.
Qed.

(** ** Queries *)
Lemma unhex_value c v : unhex c = Some v <-> hex_value c v.
Proof.
  unfold unhex, hex_value, is_digit, in_range.
  destruct ((48 <=? c) && (c <=? 57)) eqn:A; [split; [intros [= <-]|intros H; f_equal]; lia|].
  destruct ((97 <=? c) && (c <=? 102)) eqn:B; [split; [intros [= <-]|intros H; f_equal]; lia|].
  destruct ((65 <=? c) && (c <=? 70)) eqn:C; [split; [intros [= <-]|intros H; f_equal]; lia|].
  split; [discriminate|lia].
Qed.
Lemma hex_value_fun c v w : hex_value c v -> hex_value c w -> v = w.
Proof. rewrite <- !unhex_value. congruence. Qed.
Lemma two_ind (P : bytes -> Prop) : P [] -> (forall c t, P t -> (forall h l r, t = h :: l :: r -> P r) -> P (c :: t)) -> forall s, P s.
Proof.
  intros H0 H1 s. remember (List.length s) as n eqn:L. revert s L. induction n as [n IH] using lt_wf_ind. intros s L.
  destruct s as [|c t]; [exact H0|]. apply H1.
  - apply (IH (List.length t)); subst; cbn; auto.
  - intros h l r ->. apply (IH (List.length r)); subst; cbn; auto.
Qed.
Lemma unescape_stands s : forall t, query_unescape s = Some t <-> stands_for s t.
Proof.
  unfold query_unescape. apply (two_ind (fun s => forall t, url_unescape EncQuery s = Some t <-> stands_for s t)).
  - intros t. cbn. split; [intros [= <-]; constructor|]. now inversion 1.
  - intros c s' IH1 IH2 t. cbn [url_unescape]. destruct (N.eqb_spec c 37) as [->|N37].
    + destruct s' as [|h [|l r]]; [split; [discriminate|inversion 1; lia]|split; [discriminate|inversion 1; lia]|].
      specialize (IH2 h l r eq_refl). destruct (unhex h) as [x|] eqn:X.
      * destruct (unhex l) as [y|] eqn:Y.
        -- cbn iota. destruct (url_unescape EncQuery r) as [t'|] eqn:T; cbn [option_map].
           ++ split.
              ** intros [= <-]. replace (x * 16 + y) with (16 * x + y) by lia. constructor; [now apply unhex_value..|now apply IH2].
              ** inversion 1 as [|?|h' l' x' y' s'' t'' Hx Hy Hs|]; subst; [|lia].
                 apply unhex_value in Hx, Hy. apply IH2 in Hs. f_equal. f_equal; [|congruence]. rewrite X in Hx. rewrite Y in Hy.
                 injection Hx as ->. injection Hy as ->. lia.
           ++ split; [discriminate|]. inversion 1 as [|?|h' l' x' y' s'' t'' Hx Hy Hs|]; subst; [|lia]. now apply IH2 in Hs.
        -- split; [discriminate|]. inversion 1 as [|?|h' l' x' y' s'' t'' Hx Hy Hs|]; subst; [|lia]. apply unhex_value in Hy. congruence.
      * split; [discriminate|]. inversion 1 as [|?|h' l' x' y' s'' t'' Hx Hy Hs|]; subst; [|lia]. apply unhex_value in Hx. congruence.
    + destruct (N.eqb_spec c 43) as [->|N43]; cbn [andb].
      * destruct (url_unescape EncQuery s') as [t'|] eqn:T; cbn [option_map].
        -- split; [intros [= <-]; constructor; now apply IH1|]. inversion 1; subst; [|lia]. f_equal. f_equal.
           enough (Some t' = Some t0) by congruence. now apply IH1.
        -- split; [discriminate|]. inversion 1; subst; [|lia]. enough (None = Some t0) by congruence. now apply IH1.
      * destruct (url_unescape EncQuery s') as [t'|] eqn:T; cbn [option_map].
        -- split; [intros [= <-]; constructor; auto; now apply IH1|]. inversion 1; subst; try lia. f_equal. f_equal.
           enough (Some t' = Some t0) by congruence. now apply IH1.
        -- split; [discriminate|]. inversion 1; subst; try lia. enough (None = Some t0) by congruence. now apply IH1.
Qed.
Definition small (s : bytes) : Prop := forall c, In c s -> c < 256.
Lemma hex_digit_value n : n < 16 -> hex_value (hex_digit n) n.
Proof. intros H. unfold hex_value, hex_digit. destruct (n <? 10) eqn:E; lia. Qed.
Lemma stands_small s t : stands_for s t -> small s -> small t.
Proof.
  unfold hex_value. induction 1 as [|s t H IH|h l x y s t Hx Hy H IH|c s t N1 N2 H IH]; intros S; [easy|..].
  - intros c [<-|I]; [lia|]. apply IH; auto. intros d J. apply S. now right.
  - intros c [<-|I]; [unfold hex_value in *; lia|]. apply IH; auto. intros d J. apply S. right. right. now right.
  - intros d [<-|I]; [apply S; now left|]. apply IH; auto. intros e J. apply S. now right.
Qed.
Lemma stands_fun s t t' : stands_for s t -> stands_for s t' -> t = t'.
Proof. rewrite <- !unescape_stands. congruence. Qed.
Lemma escape_stands t : small t -> stands_for (query_escape t) t.
Proof.
  unfold query_escape, url_escape. induction t as [|c t IH]; intros S; [constructor|]. cbn [flat_map].
  assert (IH' : stands_for (flat_map (escape_byte EncQuery) t) t) by (apply IH; intros d J; apply S; now right).
  unfold escape_byte at 1. destruct (should_escape EncQuery c) eqn:E.
  - destruct (N.eqb_spec c 32) as [->|N]; cbn [andb app]; [now constructor|].
    assert (C : c < 256) by (apply S; now left).
    replace (c :: t) with (16 * (c / 16) + c mod 16 :: t) by (rewrite <- N.div_mod by lia; reflexivity).
    constructor; [apply hex_digit_value, N.div_lt_upper_bound; lia|apply hex_digit_value, N.mod_lt; lia|exact IH'].
  - cbn [app]. constructor; [| |exact IH']; intros ->; discriminate.
Qed.
Lemma escape_no t c : c = 38 \/ c = 61 \/ c = 43 -> In c (query_escape t) -> c = 43.
Proof.
  intros C. unfold query_escape, url_escape. rewrite in_flat_map. intros (d & _ & J). unfold escape_byte in J.
  destruct (should_escape EncQuery d) eqn:E.
  - destruct ((d =? 32) && true); [destruct J as [<-|[]]; reflexivity|].
    assert (H : forall n, hex_digit n <> 38 /\ hex_digit n <> 61 /\ hex_digit n <> 43 \/ 6 <= n) by (intros n; unfold hex_digit; destruct (n <? 10) eqn:Q; lia).
    destruct J as [<-|[J|[J|[]]]]; [lia| |].
    + revert J. unfold hex_digit. destruct (d / 16 <? 10) eqn:Q; lia.
    + revert J. unfold hex_digit. destruct (d mod 16 <? 10) eqn:Q; lia.
  - destruct J as [<-|[]]. destruct C as [->|[->| ->]]; discriminate.
Qed.
Definition spaced (s : bytes) : bytes := replace_all [43] (b "%20") s.
Lemma spaced_eq s : spaced s = flat_map (fun x => if x =? 43 then b "%20" else [x]) s.
Proof. apply replace_one. Qed.
Lemma spaced_app x y : spaced (x ++ y) = spaced x ++ spaced y.
Proof. rewrite !spaced_eq. apply flat_map_app. Qed.
Lemma spaced_in c s : c <> 37 -> c <> 50 -> c <> 48 -> In c (spaced s) -> In c s.
Proof. intros A B C I. apply replace_one_in in I as [[I _]|I]; [exact I|]. cbn in I. lia. Qed.
Lemma spaced_stands s t : stands_for s t -> stands_for (spaced s) t.
Proof.
  rewrite spaced_eq. induction 1 as [|s t H IH|h l x y s t Hx Hy H IH|c s t N1 N2 H IH]; cbn [flat_map]; [constructor|..].
  - change (43 =? 43) with true. cbn iota. change (b "%20") with [37; 50; 48]. cbn [app].
    change (32 :: t) with (16 * 2 + 0 :: t). constructor; [unfold hex_value; lia..|exact IH].
  - change (37 =? 43) with false. cbn iota. unfold hex_value in *.
    replace (h =? 43) with false by lia. replace (l =? 43) with false by lia. cbn [app]. now constructor.
  - replace (c =? 43) with false by lia. cbn [app]. now constructor.
Qed.
Lemma spaced_back s : forall t, stands_for (spaced s) t -> stands_for s t.
Proof.
  rewrite spaced_eq. apply (two_ind (fun s => forall t, stands_for (flat_map (fun x => if x =? 43 then b "%20" else [x]) s) t -> stands_for s t)).
  - easy.
  - intros c r IH1 IH2 t. cbn [flat_map]. destruct (N.eqb_spec c 43) as [->|N].
    + change (b "%20") with [37; 50; 48]. cbn [app]. inversion 1 as [|?|h' l' x' y' s'' t'' Hx Hy Hs|]; subst; [|lia].
      assert (x' = 2 /\ y' = 0) as [-> ->] by (unfold hex_value in *; lia). change (16 * 2 + 0) with 32. constructor. auto.
    + cbn [app]. inversion 1 as [|s1 t1 H1 E1|h' l' x' y' s'' t'' Hx Hy Hs E0 E1|]; subst; [lia| |constructor; auto].
      rename H0 into E1. symmetry in E1.
      destruct r as [|h [|l r]]; cbn [flat_map] in E1.
      * discriminate.
      * rewrite app_nil_r in E1. destruct (N.eqb_spec h 43); [|discriminate].
        change (b "%20") with [37; 50; 48] in E1. injection E1 as <- <- _. unfold hex_value in *. lia.
      * destruct (N.eqb_spec h 43).
        { change (b "%20") with [37; 50; 48] in E1. injection E1 as <- E1. unfold hex_value in *. lia. }
        cbn [app] in E1. injection E1 as -> E1. destruct (N.eqb_spec l 43).
        { change (b "%20") with [37; 50; 48] in E1. injection E1 as <- E1. unfold hex_value in *. lia. }
        cbn [app] in E1. injection E1 as -> E1. constructor; auto. apply (IH2 h' l' r eq_refl). rewrite <- E1 in Hs. exact Hs.
Qed.
Lemma same_spaced s : same_meaning s (spaced s).
Proof. intros t. split; [apply spaced_stands|apply spaced_back]. Qed.
Lemma dae_same s : small s -> same_meaning s (decode_and_encode go_url s).
Proof.
  intros S t. unfold decode_and_encode. cbn [op_query_unescape op_query_escape go_url].
  destruct (query_unescape s) as [v|] eqn:E; [|reflexivity].
  assert (V := E). apply unescape_stands in V. assert (W := escape_stands v (stands_small _ _ V S)).
  split; intros H.
  - assert (t = v) by (eapply stands_fun; eauto). now subst.
  - assert (t = v) by (eapply stands_fun; eauto). now subst.
Qed.
Lemma dae_in s c : c = 38 \/ c = 61 -> ~ In c s -> ~ In c (decode_and_encode go_url s).
Proof.
  intros C N. unfold decode_and_encode. cbn [op_query_unescape op_query_escape go_url].
  destruct (query_unescape s) as [v|]; [|exact N]. intros I. apply escape_no in I; lia.
Qed.
Lemma same_trans x y z : same_meaning x y -> same_meaning y z -> same_meaning x z.
Proof. intros A B t. rewrite (A t). apply B. Qed.
Lemma encode_part_same p : small p -> ~ In 38 p -> same_param p (spaced (encode_part go_url p)) /\ ~ In 38 (spaced (encode_part go_url p)).
Proof.
  intros S A. unfold encode_part. destruct (cut_at 61 p) as [[k v]|] eqn:E.
  - apply cut_at_eq in E as [-> N].
    assert (K : small k) by (intros c I; apply S, in_or_app; now left).
    assert (V : small v) by (intros c I; apply S, in_or_app; right; now right).
    assert (AK : ~ In 38 k) by (intros I; apply A, in_or_app; now left).
    assert (AV : ~ In 38 v) by (intros I; apply A, in_or_app; right; now right).
    assert (G : same_param (k ++ [61] ++ v) (spaced (decode_and_encode go_url k ++ [61] ++ decode_and_encode go_url v)) /\
      ~ In 38 (spaced (decode_and_encode go_url k ++ [61] ++ decode_and_encode go_url v))).
    { split.
      - rewrite !spaced_app. change (spaced [61]) with [61]. constructor; [exact N| | |].
        + intros I. apply spaced_in in I; [|lia..]. now apply dae_in in I; auto.
        + eapply same_trans; [now apply dae_same|apply same_spaced].
        + eapply same_trans; [now apply dae_same|apply same_spaced].
      - intros I. apply spaced_in in I; [|lia..]. rewrite !in_app_iff in I. destruct I as [I|[I|I]].
        + now apply dae_in in I; auto.
        + cbn in I. lia.
        + now apply dae_in in I; auto. }
    destruct v as [|c v]; [|exact G]. cbn [is_empty]. change (decode_and_encode go_url []) with (@nil byte) in G.
    cbn [app] in G. exact G.
  - apply cut_at_none in E. split.
    + constructor; [exact E| |].
      * intros I. apply spaced_in in I; [|lia..]. now apply dae_in in I; auto.
      * eapply same_trans; [now apply dae_same|apply same_spaced].
    + intros I. apply spaced_in in I; [|lia..]. now apply dae_in in I; auto.
Qed.
Lemma spaced_join l : spaced (join [38] l) = join [38] (map spaced l).
Proof.
  induction l as [|x l IH]; [reflexivity|]. destruct l as [|y l]; [reflexivity|]. cbn [map]. rewrite !join_cons by easy.
  rewrite !spaced_app, IH. reflexivity.
Qed.
Lemma query_same q : (forall c, In c q -> c < 256) -> exists ps ps',
  q = join [38] ps /\ no_amp ps /\
  replace_all [43] (b "%20") (parse_and_encode_query go_url q) = join [38] ps' /\ no_amp ps' /\ Forall2 same_param ps ps'.
Proof.
  intros S. exists (split_on 38 q), (map (fun p => spaced (encode_part go_url p)) (split_on 38 q)).
  assert (P : forall p, In p (split_on 38 q) -> same_param p (spaced (encode_part go_url p)) /\ ~ In 38 (spaced (encode_part go_url p))).
  { intros p I. apply encode_part_same; [|now apply split_nosep in I]. intros c J. apply S. eapply split_sub; eauto. }
  split; [now rewrite split_join|]. split; [intros p I; now apply split_nosep in I|]. split; [|split].
  - unfold parse_and_encode_query. destruct q as [|c q]; [reflexivity|]. cbn [is_empty].
    change (spaced (join [38] (map (encode_part go_url) (split_on 38 (c :: q)))) =
      join [38] (map (fun p => spaced (encode_part go_url p)) (split_on 38 (c :: q)))).
    rewrite spaced_join, map_map. reflexivity.
  - intros p. rewrite in_map_iff. intros (r & <- & I). now apply P.
  - revert P. generalize (split_on 38 q). induction l as [|p l IH]; intros P; cbn [map]; constructor.
    + apply P. now left.
    + apply IH. intros r I. apply P. now right.
Qed.

(** ** The replacement of the characters that break out keeps what a component stands for *)
Lemma percent_byte_eq c : exists x, percent_byte c = x /\ (x = [c] \/ (exists h l, x = [37; h; l] /\ c <> 37 /\
  exists a d, hex_value h a /\ hex_value l d /\ c = 16 * a + d)).
Proof.
  eexists. split; [reflexivity|]. unfold percent_byte.
  destruct (N.eqb_spec c 32); [right; exists 50, 48; split; [reflexivity|]; split; [lia|]; exists 2, 0; unfold hex_value; lia|].
  destruct (N.eqb_spec c 91); [right; exists 53, 66; split; [reflexivity|]; split; [lia|]; exists 5, 11; unfold hex_value; lia|].
  destruct (N.eqb_spec c 93); [right; exists 53, 68; split; [reflexivity|]; split; [lia|]; exists 5, 13; unfold hex_value; lia|].
  destruct (N.eqb_spec c 40); [right; exists 50, 56; split; [reflexivity|]; split; [lia|]; exists 2, 8; unfold hex_value; lia|].
  destruct (N.eqb_spec c 41); [right; exists 50, 57; split; [reflexivity|]; split; [lia|]; exists 2, 9; unfold hex_value; lia|].
  destruct (N.eqb_spec c 60); [right; exists 51, 67; split; [reflexivity|]; split; [lia|]; exists 3, 12; unfold hex_value; lia|].
  destruct (N.eqb_spec c 62); [right; exists 51, 69; split; [reflexivity|]; split; [lia|]; exists 3, 14; unfold hex_value; lia|].
  now left.
Qed.
Lemma percent_hex h x : hex_value h x -> percent_byte h = [h].
Proof. unfold hex_value. intros H. destruct (percent_byte_ok h); [lia|assumption]. Qed.
Lemma percent_spells s t : spells s t -> spells (percent_replace s) t.
Proof.
  unfold percent_replace. induction 1 as [|h l x y s t Hx Hy H IH|c s t N H IH]; cbn [flat_map]; [constructor| |].
  - rewrite (percent_hex _ _ Hx), (percent_hex _ _ Hy). change (percent_byte 37) with [37]. cbn [app]. now constructor.
  - destruct (percent_byte_eq c) as (x & -> & [-> |(h & l & -> & _ & a & d & Ha & Hd & ->)]); cbn [app]; now constructor.
Qed.
Lemma percent_spells_back s : forall t, spells (percent_replace s) t -> spells s t.
Proof.
  apply (two_ind (fun s => forall t, spells (percent_replace s) t -> spells s t)).
  - easy.
  - intros c r IH1 IH2 t. unfold percent_replace. cbn [flat_map]. fold (percent_replace r).
    destruct (percent_byte_eq c) as (x & E & [-> |(h & l & -> & N37 & a & d & Ha & Hd & Ec)]); rewrite E; cbn [app].
    + inversion 1 as [|h' l' x' y' s'' t'' Hx Hy Hs E0 E1|]; subst; [|constructor; auto].
      try rename H0 into E1. symmetry in E1.
      destruct r as [|h [|l r]]; unfold percent_replace in E1; cbn [flat_map] in E1; [discriminate|..].
      * rewrite app_nil_r in E1. destruct (percent_byte_eq h) as (z & Ez & [-> |(h2 & l2 & -> & _)]); rewrite Ez in E1; [discriminate|].
        injection E1 as <- _. unfold hex_value in *. lia.
      * fold (percent_replace r) in E1. destruct (percent_byte_eq h) as (z & Ez & [-> |(h2 & l2 & -> & _)]); rewrite Ez in E1; [|injection E1 as <- _; unfold hex_value in *; lia].
        cbn [app] in E1. injection E1 as -> E1. destruct (percent_byte_eq l) as (w & Ew & [-> |(h2 & l2 & -> & _)]); rewrite Ew in E1; [|injection E1 as <- _; unfold hex_value in *; lia].
        cbn [app] in E1. injection E1 as -> E1. constructor; auto. apply (IH2 _ _ r eq_refl). rewrite <- E1 in Hs. exact Hs.
    + inversion 1 as [|h' l' x' y' s'' t'' Hx Hy Hs E0 E1|]; subst; [|congruence].
      assert (x' = a) by (eapply hex_value_fun; eauto). assert (y' = d) by (eapply hex_value_fun; eauto). subst. constructor; auto.
Qed.
Lemma percent_keeps s t : spells s t <-> spells (percent_replace s) t.
Proof. split; [apply percent_spells|apply percent_spells_back]. Qed.

(** ** Reading the link back *)
Definition bare_ok (dest : bytes) : Prop :=
  (forall c, In c dest -> 32 < c /\ c <> 127 /\ c <> 40 /\ c <> 41 /\ c <> 60) /\ ~ exists x, dest = x ++ [92].
Lemma read_bare_eq d : forall esc rest c, (forall x, In x d -> 32 < x /\ x <> 127 /\ x <> 40 /\ x <> 41) ->
  (forall x, d <> x ++ [92]) -> (d = [] -> esc = false) -> c = 32 \/ c = 41 -> read_bare esc (d ++ c :: rest) = (d, c :: rest).
Proof.
  induction d as [|x d IH]; intros esc rest c H N E C; cbn [app read_bare].
  - rewrite E by reflexivity. replace ((c <=? 32) || (c =? 127) || ((c =? 40) || (c =? 41)) && negb false) with true by lia. reflexivity.
  - assert (X := H x (or_introl eq_refl)). replace ((x <=? 32) || (x =? 127) || ((x =? 40) || (x =? 41)) && negb esc) with false by lia.
    rewrite IH; [reflexivity|..|exact C].
    + intros y I. apply H. now right.
    + intros y ->. apply (N (x :: y)). reflexivity.
    + intros ->. destruct (N.eqb_spec x 92) as [->|]; [|reflexivity]. exfalso. now apply (N []).
Qed.
Lemma skip_id c t : blank c = false -> skip_blanks (c :: t) = c :: t.
Proof. intros H. cbn. now rewrite H. Qed.
Lemma tail_read dest title rest : bare_ok dest -> dest <> [] -> ~ stray_backslash title ->
  exists o, read_tail (dest_and_title dest title ++ rest) = Some (dest, o, rest) /\
    (title = [] /\ o = None \/ exists q inner, o = Some inner /\ (q = 34 \/ q = 39) /\ strip_escapes q inner = title).
Proof.
  intros [H N] NE T. destruct dest as [|d0 dest]; [easy|].
  assert (D0 := H d0 (or_introl eq_refl)).
  assert (RB : forall c r, c = 32 \/ c = 41 -> read_bare false ((d0 :: dest) ++ c :: r) = (d0 :: dest, c :: r)).
  { intros c r C. apply read_bare_eq; auto.
    - intros x I. apply H in I. tauto.
    - intros x E. apply N. now exists x. }
  assert (SK : forall r, skip_blanks ((d0 :: dest) ++ r) = (d0 :: dest) ++ r) by (intros r; apply skip_id; unfold blank; lia).
  assert (LT : forall r, match (d0 :: dest) ++ r with 60 :: _ => true | _ => false end = false).
  { intros r. cbn [app]. destruct d0 as [|p]; [lia|]. repeat (destruct p as [p|p|]; try reflexivity). lia. }
  unfold dest_and_title. rewrite <- !app_assoc. change ([40] ++ ?x) with (40 :: x). unfold read_tail. cbv zeta. rewrite SK, LT.
  destruct title as [|t0 title].
  - exists None. split; [|now left]. cbn [is_empty]. change ([] ++ [41] ++ rest) with (41 :: rest). rewrite RB by lia. reflexivity.
  - destruct (quotes_read (t0 :: title) (41 :: rest)) as (q & inner & Q & E & R & S); [easy|exact T|].
    exists (Some inner). split; [|right; now exists q, inner]. cbn [is_empty].
    change ((cSP :: surround_by_quotes (t0 :: title)) ++ [41] ++ rest) with (32 :: surround_by_quotes (t0 :: title) ++ 41 :: rest).
    rewrite RB by lia. cbn [skip_blanks]. change (blank 32) with true. cbn iota.
    assert (SQ : skip_blanks (surround_by_quotes (t0 :: title) ++ 41 :: rest) = surround_by_quotes (t0 :: title) ++ 41 :: rest).
    { rewrite E. apply skip_id. unfold blank. lia. }
    rewrite SQ. assert (CP : close_paren (surround_by_quotes (t0 :: title) ++ 41 :: rest) = None).
    { rewrite E. cbn [app close_paren]. replace (q =? 41) with false by lia. reflexivity. }
    rewrite CP, R. reflexivity.
Qed.
Lemma link_read domain raw title rest :
  let dest := assemble_absolute_url go_url domain raw in
  dest <> [] -> (forall c, In c dest -> 32 <= c /\ c <> 127) -> (~ exists x, dest = x ++ [92]) -> ~ stray_backslash title ->
  exists o, read_tail (dest_and_title dest title ++ rest) = Some (dest, o, rest) /\
    (title = [] /\ o = None \/ exists q inner, o = Some inner /\ (q = 34 \/ q = 39) /\ strip_escapes q inner = title).
Proof.
  intros dest NE C B T. apply tail_read; auto. split; [|exact B]. intros c I.
  assert (N := assemble_brackets _ _ _ _ I). assert (M := C c I). cbn in N. lia.
Qed.
Lemma close_paren_in s r : close_paren s = Some r -> In 41 s.
Proof. destruct s as [|c s]; [discriminate|]. cbn. destruct (N.eqb_spec c 41); [left; auto|discriminate]. Qed.
Lemma skip_in s c : In c (skip_blanks s) -> In c s.
Proof. induction s as [|d s IH]; [easy|]. cbn. destruct (blank d); [right; auto|easy]. Qed.
Lemma read_bare_in s : forall e c, In c (snd (read_bare e s)) -> In c s.
Proof.
  induction s as [|d s IH]; intros e c; [easy|]. cbn [read_bare].
  destruct ((d <=? 32) || (d =? 127) || ((d =? 40) || (d =? 41)) && negb e); [easy|].
  specialize (IH ((d =? 92) && negb e) c). destruct (read_bare ((d =? 92) && negb e) s) as [x r]. cbn [snd] in *. intros I. right. auto.
Qed.
Lemma until_in q s : forall e x r c, until_unescaped q e s = Some (x, r) -> In c r -> In c s.
Proof.
  induction s as [|d s IH]; intros e x r c; [discriminate|]. cbn [until_unescaped]. destruct e.
  - destruct (until_unescaped q false s) as [[x' r']|] eqn:E; [|discriminate]. intros [= <- <-] I. right. eapply IH; eauto.
  - destruct (d =? q); [intros [= <- <-]; now right|].
    destruct (until_unescaped q (d =? 92) s) as [[x' r']|] eqn:E; [|discriminate]. intros [= <- <-] I. right. eapply IH; eauto.
Qed.
Lemma backslash_breaks : exists raw, forall rest, ~ In 41 rest ->
  read_tail (dest_and_title (assemble_absolute_url go_url [] raw) [] ++ rest) = None.
Proof.
  exists (b "mailto:a\"). intros rest N.
  assert (E : dest_and_title (assemble_absolute_url go_url [] (b "mailto:a\")) [] = b "(mailto:a\)") by (vm_compute; reflexivity).
  rewrite E. change (b "(mailto:a\)") with [40; 109; 97; 105; 108; 116; 111; 58; 97; 92; 41]. cbn [app].
  unfold read_tail. cbv zeta. change (skip_blanks (109 :: ?x)) with (109 :: x). cbn iota.
  cbn [read_bare]. cbn -[read_bare close_paren skip_blanks blank read_title].
  assert (R := read_bare_in rest false). destruct (read_bare false rest) as [x r]. cbn [snd] in R.
  destruct (close_paren (skip_blanks r)) as [t|] eqn:C; [exfalso; apply close_paren_in, skip_in, R in C; auto|].
  destruct (match r with c :: _ => blank c | [] => false end); [|reflexivity].
  destruct (read_title (skip_blanks r)) as [[i r']|] eqn:T; [|reflexivity].
  destruct (close_paren (skip_blanks r')) as [t|] eqn:D; [|reflexivity]. exfalso. apply close_paren_in, skip_in in D.
  apply N, R, skip_in. unfold read_title in T. destruct (skip_blanks r) as [|q u]; [discriminate|].
  destruct ((q =? 34) || (q =? 39)); [|discriminate]. right. eapply until_in; eauto.
Qed.
Lemma percent_example : percent_replace (b "a (%41)") = b "a%20%28%41%29" /\ spells (b "a%20%28%41%29") (b "a (A)").
Proof.
  split; [vm_compute; reflexivity|]. change (b "a%20%28%41%29") with [97; 37; 50; 48; 37; 50; 56; 37; 52; 49; 37; 50; 57].
  change (b "a (A)") with [97; 16 * 2 + 0; 16 * 2 + 8; 16 * 4 + 1; 16 * 2 + 9].
  apply spl_char; [lia|]. repeat (apply spl_percent; [unfold hex_value; lia..|]). constructor.
Qed.
