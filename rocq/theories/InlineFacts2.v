(** Reading the parts of a paragraph one after the other (C67). *)
From Coq Require Import List NArith ZArith Bool String Lia ZifyBool ZifyNat ZifyN.
From Verif Require Import Bytes BytesFacts Escape SpecEscape Dom SpecDom RenderText RenderFacts SpecText SpecText2 SpecUrl Engine CommonMark SpecPipeline SpecNode SpecPlain SpecBlocks SpecInline
  InlineFacts1.
Import ListNotations.
Open Scope N_scope.
Open Scope list_scope.

Section reading.
Variables wb wa : bytes -> class.
Variable edge : class.
Hypothesis Hedge : edge <> Letter.
Variable link_read : bytes -> option styled.
Variable url : bytes -> bytes.
Variable cfg : config.
Hypothesis Hcfg : usual_delimiters cfg.
Notation tokens := (tokens wb wa edge link_read).
Notation before_class := (before_class wb edge).
Notation after_class := (after_class wa edge).
Definition delimiter (x : bytes) : bytes := if strong_element x then strong_delimiter cfg else em_delimiter cfg.
Lemma delimiter_cases x : exists c k, delimiter x = repeat c k /\ (c = 42 \/ c = 95) /\ k = (if strong_element x then 2 else 1)%nat /\ emphasis_char cfg x = c.
Proof.
  unfold delimiter, emphasis_char. destruct Hcfg as [[-> | ->] [-> | ->]]; destruct (strong_element x); cbn [hd];
    [exists 42, 2%nat|exists 42, 1%nat|exists 95, 2%nat|exists 42, 1%nat|exists 42, 2%nat|exists 95, 1%nat|exists 95, 2%nat|exists 95, 1%nat]; auto.
Qed.
(** [o] is read as the parts [ks] between the delimiters of emphasis. *)
Definition opened (x : bytes) (p : list token) : Prop := exists c k cl q, delimiter x = repeat c k /\ k = (if strong_element x then 2 else 1)%nat /\ p = Delims c k k true cl :: q.
Record reads_inside (top : bool) (x : bytes) (ks : list node) (o : bytes) : Prop := {
  ri_first : forall c, c = 42 \/ c = 95 -> forall z, first_is c (o ++ z) = false;
  ri_after : ascii (first_byte (hd (Comment []) ks)) = true -> forall z, after_class (o ++ z) = class_of (first_byte (hd (Comment []) ks));
  ri_before : ascii (last_byte (last ks (Comment []))) = true -> forall z, before_class (rev o ++ z) = class_of (last_byte (last ks (Comment [])));
  ri_read : forall p q done rest, opened x p -> p = hd Lost p :: q -> (top = true -> forallb is_char q = true) -> before_class done <> Letter ->
    first_is 91 rest = false -> first_is 96 rest = false -> after_class rest <> Letter ->
    resolve p (tokens 0 done (o ++ rest)) = resolve (rev (chars (flat_map (formatted url) ks)) ++ p) (tokens 0 (rev o ++ done) rest) }.
(** [top]: not inside emphasis or a link *)
Inductive written (top : bool) : node -> bytes -> Prop :=
| w_text t o : (if top then busy_as t o else shown_as t o) -> written top (Text t) o
| w_emphasis x a ks o : strong_element x || em_element x = true -> reads_inside top x ks o -> written top (Elem x a ks) (delimiter x ++ o ++ delimiter x)
| w_code x a d w : strong_element x || em_element x = false -> code_element x = true -> (exists u, w = u ++ [96]) ->
    (forall rest, first_is 96 rest = false -> read_code_span (96 :: w ++ rest) = Some (d, rest)) -> written top (Elem x a [Text d]) (96 :: w)
| w_link a ks text tail : (exists u, tail = u ++ [41]) ->
    (forall rest, until_bracket O false (text ++ 93 :: tail ++ rest) = Some (text, tail ++ rest)) ->
    (forall rest, exists o, read_tail (tail ++ rest) = Some (url (attribute (Elem (b "a") a ks) (b "href")), o, rest)) ->
    link_read text = Some (flat_map (formatted url) ks) -> written top (Elem (b "a") a ks) (91 :: text ++ 93 :: tail).
Lemma quiet_ne t : quiet_text t = true -> t <> [].
Proof. unfold quiet_text. now destruct t. Qed.
Lemma busy_ne t : busy_text t = true -> t <> [].
Proof. unfold busy_text. now destruct t. Qed.
Lemma text_run inner before after t : run url cfg inner before after (Text t) = true -> t <> [] /\ (before = 42 -> hd 0 t <> 42 /\ hd 0 t <> 95).
Proof.
  cbn [run kind_of]. intros R. destruct inner as [q|].
  - apply andb_true_iff in R as [R1 R2]. split; [now apply busy_ne|]. intros ->. unfold star in R2. cbn [N.eqb Pos.eqb andb] in R2. lia.
  - pose proof (quiet_ne t R) as Ne. split; auto. intros _. destruct t as [|c t]; [easy|]. unfold quiet_text in R. cbn [forallb] in R. cbn [hd].
    assert (Q : quiet_char c = true) by (destruct (quiet_char c); auto; rewrite andb_false_r in R; discriminate). split; apply (quiet_not c); auto; cbn; tauto.
Qed.
Lemma top_busy (top : bool) t o : (if top then busy_as t o else shown_as t o) -> busy_as t o.
Proof. destruct top; auto. apply shown_busy. Qed.
(** How the next part begins *)
Lemma next_first top inner prev before ks os rest0 : Forall2 (written top) ks os -> runs url cfg inner prev before ks = true -> after_class rest0 <> Letter ->
  let rest := List.concat os ++ rest0 in
  (match ks with
   | [] => rest = rest0
   | m :: _ => exists c u, rest = c :: u /\ (c = 91 -> kind_of m = Some KLink) /\ (c = 96 -> kind_of m = Some KCode) /\ (c = 42 \/ c = 95 -> before = 42 -> kind_of m = Some KEmphasis)
   end) /\ (loose (match ks with m :: _ => first_byte m | [] => 32 end) = true -> after_class rest <> Letter).
Proof.
  intros F R R0. destruct F as [|m o ks os W F]; cbv zeta; [split; [reflexivity|intros _; exact R0]|].
  cbn [runs List.concat] in R |- *. apply andb_true_iff in R as [R _]. rewrite <- app_assoc. set (z := List.concat os ++ rest0). clearbody z. clear F. 
  destruct W as [t o S|x a gs o E I|x a d w E1 E2 L H|a ks' text tail T U Rd Lr].
  - apply top_busy in S. destruct (text_run _ _ _ _ R) as [Ne B42]. destruct o as [|c o]; [now apply busy_nil in S|]. split.
    + exists c, (o ++ z). split; [reflexivity|]. destruct (busy_first _ _ _ S) as (A1 & A2 & A3 & A4 & A5 & _). split; [easy|]. split; [easy|]. intros C Eb. exfalso. destruct (B42 Eb) as [H1 H2].
      destruct A5 as [[D1 D2]|(u & ->)]; [destruct C; contradiction|]. cbn [hd] in *. destruct C; contradiction.
    + destruct t as [|y t]; [easy|]. cbn [first_byte]. unfold loose. intros L. apply andb_true_iff in L as [A L]. rewrite (busy_after wa edge (y :: t) (c :: o) S ltac:(discriminate) A).
      cbn [hd]. intros C. now rewrite C in L.
  - destruct (delimiter_cases x) as (c & k & -> & C & K & _). assert (Ek : kind_of (Elem x a gs) = Some KEmphasis) by (cbn [kind_of]; now rewrite E).
    destruct k as [|k]; [destruct (strong_element x); discriminate|]. cbn [repeat app]. split.
    + eexists c, _. split; [reflexivity|]. repeat split; auto; intros ->; destruct C; discriminate.
    + intros _. cbn [after_class]. destruct C; subst c; cbn; discriminate.
  - cbn [app]. assert (Ek : kind_of (Elem x a [Text d]) = Some KCode) by (cbn [kind_of]; now rewrite E1, E2). split.
    + eexists 96, _. split; [reflexivity|]. repeat split; auto; try discriminate. intros [?|?]; discriminate.
    + intros _. cbn. discriminate.
  - cbn [app]. assert (Ek : kind_of (Elem (b "a") a ks') = Some KLink) by reflexivity. split.
    + eexists 91, _. split; [reflexivity|]. repeat split; auto; try discriminate. intros [?|?]; discriminate.
    + intros _. cbn. discriminate.
Qed.
Lemma kind_link m : kind_of m = Some KLink -> exists x a ks, m = Elem x a ks /\ x = b "a".
Proof.
  destruct m as [d|x a ks|d|ks|d]; try discriminate. cbn [kind_of]. intros K. exists x, a, ks. split; auto. destruct (strong_element x || em_element x); [discriminate|].
  destruct (code_element x); [discriminate|]. destruct (beqb x (b "a")) eqn:E; [|discriminate]. now apply beqb_eq.
Qed.
Lemma run_link inner before after m : run url cfg inner before after m = true -> kind_of m = Some KLink ->
  exists x a ks q, m = Elem x a ks /\ x = b "a" /\ inner = Some q /\ before <> 33 /\ q ks = true /\ is_empty (attribute m (b "title")) = true /\
    beqb (trim_space (attribute m (b "href"))) (attribute m (b "href")) = true /\ plain_address (url (attribute m (b "href"))) = true.
Proof.
  intros R K. destruct (kind_link m K) as (x & a & ks & -> & ->). 
  assert (R' : match inner with
      | Some p => p ks && negb (before =? 33) && is_empty (attribute (Elem (b "a") a ks) (b "title"))
                  && let h := attribute (Elem (b "a") a ks) (b "href") in beqb (trim_space h) h && plain_address (url h)
      | None => false end = true).
  { destruct ks as [|[dk|xk ak kk|dk|kk|dk] [|k2 r2]]; unfold run in R; rewrite K in R; exact R. }
  destruct inner as [q|]; [|discriminate]. cbv zeta in R'. repeat (apply andb_true_iff in R' as [R' ?]). apply andb_true_iff in H as [? ?].
  exists (b "a"), a, ks, q. repeat split; auto. lia.
Qed.
Lemma last_default (t : bytes) x y : t <> [] -> last t x = last t y.
Proof. induction t as [|c t IH]; intros N; [easy|]. destruct t; [reflexivity|]. exact (IH ltac:(discriminate)). Qed.
Lemma chars_app s t : chars (s ++ t) = chars s ++ chars t.
Proof. unfold chars. apply map_app. Qed.
Lemma in_format_restyle g t : restyle g (in_format unformatted t) = in_format (g unformatted) t.
Proof. induction t as [|c t IH]; auto. cbn [in_format restyle map fst snd]. f_equal. exact IH. Qed.
(** What is open: nothing, or emphasis with so many delimiters *)
Definition stack_ok (outer : option (N * nat)) (p : list token) : Prop :=
  match outer with
  | None => forallb is_char p = true
  | Some (c, k) => exists q1 cl q2, p = q1 ++ Delims c k k true cl :: q2 /\ forallb is_char q1 = true /\ forallb is_char q2 = true
  end.
Definition other_than (outer : option (N * nat)) (n : node) : Prop :=
  match outer, n with Some (_, k), Elem x _ _ => strong_element x || em_element x = true -> ((if strong_element x then 2 else 1) + k = 3)%nat | _, _ => True end.
Lemma stack_push outer s p : stack_ok outer p -> stack_ok outer (rev (chars s) ++ p).
Proof.
  destruct outer as [[c k]|]; cbn [stack_ok].
  - intros (q1 & cl & q2 & -> & A & B). exists (rev (chars s) ++ q1), cl, q2. split; [now rewrite app_assoc|]. split; auto. rewrite forallb_app, A, andb_true_r. apply all_rev, chars_all.
  - intros P. rewrite forallb_app, P, andb_true_r. apply all_rev, chars_all.
Qed.
Lemma stack_none outer c k p : stack_ok outer p -> (match outer with Some (_, k0) => (k + k0 = 3)%nat | None => True end) -> k = 1%nat \/ k = 2%nat -> forall bt, find_opener c k true true bt p = None.
Proof.
  destruct outer as [[c0 k0]|]; cbn [stack_ok]; intros P H K bt; [|now apply no_opener].
  destruct P as (q1 & cl & q2 & -> & A & B). rewrite opener_behind by auto. cbn [find_opener]. 
  assert (F : fits true cl true true k0 k = false). { unfold fits. assert (k0 = 1%nat /\ k = 2%nat \/ k0 = 2%nat /\ k = 1%nat) as [[-> ->]|[-> ->]] by lia; destruct cl; reflexivity. }
  rewrite F, andb_false_r. now apply no_opener.
Qed.
Lemma run_emphasis_ends inner before after x a ks : run url cfg inner before after (Elem x a ks) = true -> strong_element x || em_element x = true ->
  recognised (emphasis_char cfg x) before (first_byte (hd (Comment []) ks)) = true /\ recognised (emphasis_char cfg x) after (last_byte (last ks (Comment []))) = true.
Proof.
  intros R E. clear - R E. destruct ks as [|[d|y c gs|d|gs|d] [|k2 r2]]; unfold run in R; cbn [kind_of] in R; rewrite E in R; rewrite !andb_true_iff in R; tauto.
Qed.
Lemma restyle_emphasis x a ks : strong_element x || em_element x = true ->
  restyle (if Nat.eqb (if strong_element x then 2 else 1) 2 then as_strong else as_em) (flat_map (formatted url) ks) = formatted url (Elem x a ks).
Proof. intros E. cbn [formatted]. destruct (strong_element x); [reflexivity|]. cbn [orb] in E. now rewrite E. Qed.
Lemma read_runs top ks os : Forall2 (written top) ks os -> forall inner prev before done outer p rest0, runs url cfg inner prev before ks = true ->
  (loose before = true -> before_class done <> Letter) -> (top = true -> outer = None) -> stack_ok outer p -> Forall (other_than outer) ks ->
  first_is 91 rest0 = false -> first_is 96 rest0 = false -> after_class rest0 <> Letter -> (first_is 42 rest0 || first_is 95 rest0 = true -> is_text (last ks (Text [])) = true) ->
  resolve p (tokens 0 done (List.concat os ++ rest0)) = resolve (rev (chars (flat_map (formatted url) ks)) ++ p) (tokens 0 (rev (List.concat os) ++ done) rest0).
Proof.
  induction 1 as [|n o ks os W F IH]; intros inner prev before done outer p rest0 R B Top P Ot Z91 Z96 Za Zs.
  { reflexivity. }
  pose proof R as R'. cbn [runs] in R. apply andb_true_iff in R as [R1 R2]. destruct (kind_of n) as [kd|] eqn:Kd; [|discriminate]. apply andb_true_iff in R2 as [Ap R2].
  destruct (next_first top inner kd (last_byte n) ks os rest0 F R2 Za) as [Nx Ac]. cbn [List.concat flat_map]. rewrite <- app_assoc. set (rest := List.concat os ++ rest0) in *.
  inversion Ot as [|? ? O1 O2]; subst. 
  assert (Zs' : first_is 42 rest0 || first_is 95 rest0 = true -> is_text (last ks (Text [])) = true) by (intros H; specialize (Zs H); destruct ks; [reflexivity|exact Zs]).
  assert (Apart : forall m r, ks = m :: r -> forall j, kind_of m = Some j -> apart_kinds kd j = true).
  { intros m r -> j Ej. cbn [runs] in R2. apply andb_true_iff in R2 as [_ R2]. rewrite Ej in R2. now apply andb_true_iff in R2 as [R2 _]. }
  assert (Ih : forall s, s = formatted url n -> (loose (last_byte n) = true -> before_class (rev o ++ done) <> Letter) ->
     resolve (rev (chars s) ++ p) (tokens 0 (rev o ++ done) rest) = resolve (rev (chars (formatted url n ++ flat_map (formatted url) ks)) ++ p) (tokens 0 (rev (o ++ List.concat os) ++ done) rest0)).
  { intros s -> L. unfold rest. rewrite (IH inner kd (last_byte n) _ outer); auto using stack_push. rewrite chars_app, rev_app_distr, (rev_app_distr o), <- !app_assoc. reflexivity. }
  clear IH. destruct W as [t o S|x a gs o E I|x a d w E1 E2 L H|a ks' text tail T U Rd Lr].
  - injection Kd as <-. destruct (text_run _ _ _ _ R1) as [Ne _].
    assert (L33 : last t 42 = 33 -> first_is 91 rest = false).
    { intros L33. destruct ks as [|m r]; [now rewrite Nx|]. destruct Nx as (c & u & -> & N1 & _). cbn [first_is]. destruct (c =? 91) eqn:C; auto. apply N.eqb_eq in C. exfalso.
      apply N1 in C. cbn [runs] in R2. apply andb_true_iff in R2 as [R2 _]. destruct (run_link _ _ _ _ R2 C) as (_ & _ & _ & _ & _ & _ & _ & N33 & _). apply N33. exact L33. }
    assert (Lb : loose (last_byte (Text t)) = true -> before_class (rev o ++ done) <> Letter).
    { cbn [last_byte]. unfold loose; intros L; apply andb_true_iff in L as [A L]; rewrite (busy_before wb edge t o (top_busy _ _ _ S) Ne 42 A); intros C; now rewrite C in L. }
    destruct top.
    + rewrite (Top eq_refl) in P. destruct (tokens_busy wb wa edge link_read t o S done rest L33) as (ts & Et & Rs). rewrite Et, Rs by exact P. now apply Ih.
    + rewrite (tokens_text wb wa edge link_read t o S) by exact L33. rewrite resolve_chars. now apply Ih.
  - cbn [kind_of] in Kd. rewrite E in Kd. injection Kd as <-. destruct (run_emphasis_ends _ _ _ _ _ _ R1 E) as [Ro Rc].
    destruct (delimiter_cases x) as (c & k & Ed & C & K & Ec). rewrite Ec in Ro, Rc. 
    assert (Kk : k = 1%nat \/ k = 2%nat) by (destruct (strong_element x); auto). assert (Kp : (0 < k)%nat) by (clear - Kk; lia).
    assert (F2 : first_is c rest = false).
    { destruct ks as [|m r].
      - rewrite Nx. destruct (first_is c rest0) eqn:Q; auto. assert (Q' : first_is 42 rest0 || first_is 95 rest0 = true) by (apply orb_true_iff; destruct C; subst c; auto). discriminate (Zs Q').
      - destruct Nx as (y & u & -> & _ & _ & N3). cbn [first_is]. destruct (y =? c) eqn:Q; auto. apply N.eqb_eq in Q. exfalso.
        assert (J : kind_of m = Some KEmphasis) by (apply N3; [destruct C; subst; auto|unfold last_byte; cbn [kind_of]; now rewrite E]). discriminate (Apart m r eq_refl _ J). }
    destruct I as [I1 I2 I3 I4].
    assert (Ah : ascii (first_byte (hd (Comment []) gs)) = true) by (unfold recognised in Ro; now apply andb_true_iff in Ro as [? _]).
    assert (Al : ascii (last_byte (last gs (Comment []))) = true) by (unfold recognised in Rc; now apply andb_true_iff in Rc as [? _]).
    assert (Bd : forall w, before_class (repeat c k ++ w) <> Letter) by (intros w; destruct k as [|k]; [inversion Kp|]; destruct C; subst c; cbn; discriminate).
    assert (Adl : after_class (repeat c k ++ rest) <> Letter) by (destruct k as [|k]; [inversion Kp|]; destruct C; subst c; cbn; discriminate).
    assert (Rv : rev (repeat c k) = repeat c k) by (clear - Kk; destruct Kk as [-> | ->]; reflexivity).
    rewrite Ed in *. rewrite <- !app_assoc in Ih. rewrite <- !app_assoc. rewrite tokens_run by auto. rewrite I2 by auto. rewrite (open_ok c before _ (before_class done) Ro) by auto.
    rewrite resolve_open; auto.
    2:{ intros ->. apply (stack_none outer); auto. destruct outer as [[c0 k0]|]; auto. cbn [other_than] in O1. specialize (O1 E). now rewrite <- K in O1. }
    assert (Op : opened x (Delims c k k true (can_close c (before_class done) (class_of (first_byte (hd (Comment []) gs)))) :: p)) by (exists c, k; eexists _, p; split; [exact Ed|split; [exact K|reflexivity]]).
    rewrite (I4 _ p); auto; [|intros ->; rewrite (Top eq_refl) in P; exact P|destruct k as [|k]; [inversion Kp|]; destruct C; subst c; reflexivity|destruct k as [|k]; [inversion Kp|]; destruct C; subst c; reflexivity].
    rewrite tokens_run by auto. rewrite I3 by auto. rewrite (close_ok c _ _ (after_class rest) Rc) by auto. rewrite resolve_close by auto. rewrite K, restyle_emphasis with (a := a) by auto. rewrite <- K.
    replace (repeat c k ++ rev o ++ repeat c k ++ done) with (rev (repeat c k ++ o ++ repeat c k) ++ done) by (rewrite !rev_app_distr, Rv, <- !app_assoc; reflexivity).
    apply Ih; auto. intros _. rewrite !rev_app_distr, Rv, <- !app_assoc. apply Bd.
  - cbn [kind_of] in Kd. rewrite E1, E2 in Kd. injection Kd as <-. cbn [app]. rewrite (tokens_code wb wa edge link_read w d done rest).
    + apply orb_false_iff in E1 as [E1 E1']. assert (Es : in_format (as_code unformatted) d = formatted url (Elem x a [Text d])).
      { cbn [formatted flat_map]. rewrite app_nil_r, E1, E1', E2. now rewrite in_format_restyle. }
      rewrite resolve_chars. apply Ih; auto. intros _. destruct L as (u & ->). cbn [rev]. rewrite rev_app_distr. cbn. discriminate.
    + apply H. destruct ks as [|m r]; [now rewrite Nx|]. destruct Nx as (y & u & -> & _ & N2 & _). cbn [first_is]. destruct (y =? 96) eqn:Q; auto. apply N.eqb_eq in Q. exfalso.
      discriminate (Apart m r eq_refl _ (N2 Q)).
  - injection Kd as <-. destruct (Rd rest) as (q & Rt). cbn [app]. rewrite <- app_assoc. cbn [app]. rewrite (tokens_link wb wa edge link_read text tail _ q _ done rest (U rest) Rt Lr).
    rewrite resolve_chars. apply Ih; auto. intros _. destruct T as (u & ->). cbn [rev]. rewrite rev_app_distr. cbn [rev]. rewrite rev_app_distr. cbn. discriminate.
Qed.
Lemma read_filled top inner ks os : filled (runs url cfg inner) ks = true -> Forall2 (written top) ks os -> 
  styled_of (resolve [] (tokens 0 [] (List.concat os))) = Some (flat_map (formatted url) ks).
Proof.
  intros R F. destruct ks as [|n ks]; [discriminate|]. cbn [filled] in R. apply andb_true_iff in R as [_ R].
  pose proof (read_runs top _ _ F inner KLink 32 [] None [] [] R) as H. rewrite !app_nil_r in H. rewrite H; auto.
  - cbn [SpecInline.tokens resolve]. rewrite rev_involutive, literal_chars by apply chars_all. apply styled_chars.
  - reflexivity.
  - apply Forall_forall. intros; exact I.
  - discriminate.
Qed.
(** One text in emphasis *)
Lemma reads_text top x t o : t <> [] -> shown_as t o -> reads_inside top x [Text t] o.
Proof.
  intros Ne S. split; cbn [hd last].
  - intros c C z. destruct o as [|y o]; [now apply shown_nil in S|]. cbn [app first_is]. apply N.eqb_neq. destruct (shown_first _ _ _ S) as [(_ & A2 & A3 & _)|(u & _ & ->)]; destruct C; congruence.
  - intros A z. destruct t as [|y t]; [easy|]. cbn [first_byte] in *. rewrite (shown_after wa edge (y :: t) o S); auto.
  - intros A z. cbn [last_byte] in *. rewrite (shown_before wb edge t o S Ne 42 A). reflexivity.
  - intros p q done rest _ _ _ _ Z91 _ _. rewrite (tokens_text wb wa edge link_read t o S) by auto. rewrite resolve_chars. cbn [flat_map formatted]. now rewrite app_nil_r.
Qed.
(** More in emphasis *)
Lemma reads_leaves x ks os : strong_element x || em_element x = true -> link_content url cfg ks = true -> emphasis_content x ks = true -> Forall2 (written false) ks os -> reads_inside true x ks (List.concat os).
Proof.
  intros E L C F. unfold emphasis_content in C. rewrite !andb_true_iff in C. destruct C as [[C1 C2] C3]. assert (R : runs url cfg None KLink 32 ks = true) by (destruct ks as [|n ks]; [discriminate|]; now apply andb_true_iff in L as [_ L]).
  assert (H1 : exists t ks' o1 os', ks = Text t :: ks' /\ os = o1 :: os' /\ shown_as t o1 /\ t <> []).
  { destruct F as [|n o ks os W F]; [discriminate|]. destruct n as [t| | | |]; try discriminate. inversion W; subst. cbn [runs] in R. apply andb_true_iff in R as [R _]. apply text_run in R as [R _]. eauto 8. }
  assert (H2 : exists t ks' o1 os', ks = ks' ++ [Text t] /\ os = os' ++ [o1] /\ shown_as t o1 /\ t <> []).
  { clear - F R C2. revert R C2. generalize KLink. generalize 32. induction F as [|n o ks os W F IH]; intros bf kd R C2; [discriminate|]. cbn [runs] in R. apply andb_true_iff in R as [R1 R2]. destruct (kind_of n) as [k|]; [|discriminate]. apply andb_true_iff in R2 as [_ R2].
    destruct ks as [|m ks].
    - inversion F; subst. cbn [last] in C2. destruct n as [t| | | |]; try discriminate. inversion W; subst. apply text_run in R1 as [R1 _]. exists t, [], o, []. auto.
    - destruct (IH _ _ R2 C2) as (t & ks' & o1 & os' & -> & -> & S & N). exists t, (n :: ks'), o1, (o :: os'). auto. }
  destruct H1 as (t1 & k1 & o1 & os1 & E1 & Eo1 & S1 & N1). destruct H2 as (t2 & k2 & o2 & os2 & E2 & Eo2 & S2 & N2). split.
  - intros c C z. rewrite Eo1. cbn [List.concat]. destruct o1 as [|y o]; [now apply shown_nil in S1|]. cbn [app first_is]. apply N.eqb_neq. destruct (shown_first _ _ _ S1) as [(_ & A2 & A3 & _)|(u & _ & ->)]; destruct C; congruence.
  - rewrite E1, Eo1. cbn [hd List.concat]. intros A z. destruct t1 as [|y t]; [easy|]. cbn [first_byte] in *. rewrite <- app_assoc, (shown_after wa edge (y :: t) o1 S1); auto.
  - rewrite E2, Eo2, last_last. intros A z. rewrite concat_app. cbn [List.concat last_byte] in *. rewrite app_nil_r, rev_app_distr, <- app_assoc, (shown_before wb edge t2 o2 S2 N2 42 A). reflexivity.
  - intros p q done rest (c & k & cl & q' & Ed & K & Ep) Eq Q B Z91 Z96 Za. subst p. cbn [hd] in Eq. injection Eq as <-.
    eapply (read_runs false ks os F None KLink 32 done (Some (c, k))); auto.
    + discriminate.
    + exists [], cl, q'. auto.
    + apply Forall_forall. intros n I. rewrite forallb_forall in C3. specialize (C3 n I). destruct n as [|y a gs| | |]; cbn [other_than]; auto. intros Y. subst k. clear - E Y C3. destruct (strong_element x), (strong_element y), (em_element x), (em_element y); try discriminate; reflexivity.
    + intros _. rewrite E2, last_last. reflexivity.
Qed.
End reading.
