(** The preparation of documents with formatted paragraphs (C67): white space, and all handlers together. *)
From Coq Require Import List NArith ZArith Bool String Lia ZifyBool ZifyNat ZifyN Permutation Sorted.
From Verif Require Import Bytes BytesFacts TextUtils RenderText Escape SpecEscape RenderFacts Dom DomUtils Collapse SpecDom SpecText SpecPlain Engine CommonMark Table SpecEngine
  EngineFacts RenderInv SpecPipeline SpecNode PipelineFacts DomFacts DomFacts2 DomFacts3 SpecBlocks BlockFacts0 BlockFacts BlockFacts1 SpecInline InlineFacts1 InlineFacts2 InlineFacts3.
Import ListNotations.
Open Scope N_scope.
Open Scope list_scope.

(** ** Texts of paragraphs *)
Lemma collapse_same d : forallb (fun c => negb (existsb (N.eqb c) [9; 10; 13])) d = true -> single_spaced d = true ->
  collapse_ws_from false d = d /\ (first_is 32 d = false -> collapse_ws_from true d = d).
Proof.
  induction d as [|c d IH]; intros F S; auto. cbn [forallb single_spaced] in *. apply andb_true_iff in F as [F1 F2]. apply andb_true_iff in S as [S1 S2]. destruct (IH F2 S2) as [I1 I2].
  cbn [collapse_ws_from first_is]. assert (W : is_ws c = (c =? 32)). { rewrite is_ws_sep. unfold separates. cbn [existsb] in F1. lia. }
  rewrite W. destruct (c =? 32) eqn:C.
  - apply N.eqb_eq in C. subst c. cbn [andb negb] in S1. apply negb_true_iff in S1. rewrite (I2 S1). split; auto. discriminate.
  - rewrite I1. auto.
Qed.
Lemma quiet_calm d : quiet_text d = true -> forallb (fun c => negb (existsb (N.eqb c) [9; 10; 13])) d = true /\ single_spaced d = true /\ d <> [].
Proof.
  unfold quiet_text. rewrite !andb_true_iff. intros [[[N _] F] S]. split; [|split; auto; now destruct d]. rewrite forallb_forall in *. intros c I. apply F in I. unfold quiet_char in I. cbn [existsb] in *. lia.
Qed.
(** Texts in links are quiet, other texts may be busy. *)
Definition text_ok {A} (inner : option A) (d : bytes) : bool := match inner with Some _ => busy_text d | None => quiet_text d end.
Lemma settled_quiet d : forallb quiet_char d = true -> settled d = true /\ first_is 96 d = false.
Proof.
  induction d as [|c d IH]; intros F; auto. cbn [forallb] in F. apply andb_true_iff in F as [F1 F2]. destruct (IH F2) as [I1 I2]. cbn [settled first_is]. rewrite I1, I2.
  unfold quiet_char, star in *. cbn [existsb] in F1. replace (c =? 42) with false by lia. replace (c =? 95) with false by lia. replace (c =? 91) with false by lia. replace (c =? 96) with false by lia.
  cbn [orb andb negb]. destruct (tick c); auto.
Qed.
Lemma quiet_is_busy d : quiet_text d = true -> busy_text d = true.
Proof.
  unfold quiet_text, busy_text. rewrite !andb_true_iff. intros [[[N M] F] S]. destruct (settled_quiet d F) as [S1 S2]. rewrite S2. repeat split; auto.
  rewrite forallb_forall in *. intros c I. now apply quiet_busy, F.
Qed.
Lemma text_busy {A} (inner : option A) d : text_ok inner d = true -> busy_text d = true.
Proof. destruct inner; auto. apply quiet_is_busy. Qed.
Lemma busy_calm d : busy_text d = true -> forallb (fun c => negb (existsb (N.eqb c) [9; 10; 13])) d = true /\ single_spaced d = true /\ d <> [].
Proof.
  unfold busy_text. rewrite !andb_true_iff. intros [[[[[N _] F] S] _] _]. split; [|split; auto; now destruct d]. rewrite forallb_forall in *. intros c I. apply F in I. unfold busy_char in I. cbn [existsb] in *. lia.
Qed.
Lemma quiet_code_calm d : quiet_code d = true -> forallb (fun c => negb (existsb (N.eqb c) [9; 10; 13])) d = true /\ single_spaced d = true /\ d <> [] /\ trim_space d = d.
Proof.
  unfold quiet_code. rewrite !andb_true_iff. intros [[[[[[N _] S] T] F] _] _]. split; [|split; auto; split; [now destruct d|now apply beqb_eq]]. rewrite forallb_forall in *. intros c I. apply F in I. cbn [existsb] in *. lia.
Qed.
Lemma suffix_last d x : d <> [] -> has_suffix [32] d = (last d x =? 32).
Proof.
  intros N. destruct d as [|c d _] using rev_ind; [easy|]. rewrite last_last. unfold has_suffix. rewrite rev_app_distr. cbn [rev app has_prefix]. rewrite andb_true_r. apply N.eqb_sym.
Qed.
Lemma trim_suffix_same d x : last d x <> 32 -> trim_suffix_space d = d.
Proof. intros L. unfold trim_suffix_space. change cSP with 32. destruct d as [|c d]; auto. rewrite (suffix_last (c :: d) x) by discriminate. now rewrite (proj2 (N.eqb_neq _ _) L). Qed.
Definition still (s : cstate) : Prop := fst s = Some false \/ s = (None, true).
Lemma lead_keeps s d : forallb (fun c => negb (existsb (N.eqb c) [9; 10; 13])) d = true -> single_spaced d = true -> d <> [] -> still s \/ hd 32 d <> 32 ->
  lead_text s d = Some d.
Proof.
  intros F S N H. unfold lead_text, collapse_ws. rewrite (proj1 (collapse_same d F S)). destruct d as [|c d]; [easy|]. 
  assert (E : (match fst s with None => true | Some e => e end) && negb (snd s) && (c =? cSP) = false).
  { destruct H as [[->|[= ->]]|H]; auto. cbn [hd] in H. unfold cSP. rewrite (proj2 (N.eqb_neq c 32) H). apply andb_false_r. }
  now rewrite E.
Qed.
Section collapsing.
Variable isb : bytes -> bool.
Hypothesis Hb : forall x, name_in hidden_names x = false -> isb x = is_block_name x.
Variable url : bytes -> bytes.
Variable cfg : config.
Notation article := (article url cfg).
Lemma inline_effect x : name_in inline_names x = true -> effect_of isb x = if beqb x (b "code") then EKeep else EInline.
Proof.
  intros I. apply name_of_in in I. unfold effect_of. 
  assert (E : name_in hidden_names x = false /\ is_block_name x = false) by (repeat (destruct I as [<-|I]; [split; reflexivity|]); destruct I). destruct E as [E1 E2]. rewrite (Hb x E1), E2.
  repeat (destruct I as [<-|I]; [reflexivity|]). destruct I.
Qed.
Lemma inline_pre x : name_in inline_names x = true -> is_preformatted x = beqb x (b "code").
Proof. intros I. apply name_of_in in I. repeat (destruct I as [<-|I]; [reflexivity|]). destruct I. Qed.
Lemma emphasis_inline x : strong_element x || em_element x = true -> name_in inline_names x = true /\ beqb x (b "code") = false.
Proof.
  intros E. apply emphasis_cases in E. split; [apply in_name; unfold inline_names; rewrite app_assoc; apply in_app_iff; now left|]. repeat (destruct E as [<-|E]; [reflexivity|]). destruct E.
Qed.
Lemma code_inline x : code_element x = true -> name_in inline_names x = true.
Proof. intros E. apply code_cases in E. apply in_name. unfold inline_names. rewrite !in_app_iff. auto. Qed.
Lemma still_visit s : still s -> still (visit EInline s).
Proof. unfold still. destruct s as [[[]|] k]; cbn [fst]; intros [H|H]; try discriminate; cbn; auto. Qed.
Lemma text_inside s x a d : effect_of isb x = EInline -> is_preformatted x = false -> forallb (fun c => negb (existsb (N.eqb c) [9; 10; 13])) d = true -> single_spaced d = true -> d <> [] ->
  hd 32 d <> 32 -> last d 32 <> 32 -> exists s', lead isb s (Elem x a [Text d]) = (s', [Elem x a [Text d]]) /\ still s'.
Proof.
  intros Ex Px F S N H L. rewrite lead_elem, Ex, Px. cbv zeta. rewrite lead_kids_eq. cbn [lead_list lead]. rewrite lead_keeps by auto. cbn [app]. eexists. split; [reflexivity|].
  apply still_visit. left. cbn [fst]. change cSP with 32. rewrite (suffix_last d 32 N). now rewrite (proj2 (N.eqb_neq _ _) L).
Qed.
Lemma recognised_space d o c : recognised d o c = true -> c <> 32.
Proof. intros R ->. discriminate. Qed.
Lemma trimmed_ends d : trim_space d = d -> d <> [] -> hd 32 d <> 32 /\ last d 32 <> 32.
Proof.
  intros T N. pose proof (trim_space_first d) as F. pose proof (trim_space_last d) as L. rewrite T in F, L. split; intros E.
  - destruct d as [|c d]; [easy|]. cbn [hd] in E. subst c. discriminate.
  - destruct d as [|c d _] using rev_ind; [easy|]. rewrite last_last in E. subst c. unfold last_is in L. rewrite rev_app_distr in L. discriminate.
Qed.
Lemma emphasis_ends inner before after x a d : run url cfg inner before after (Elem x a [Text d]) = true -> strong_element x || em_element x = true -> d <> [] ->
  recognised (emphasis_char cfg x) before (hd 32 d) = true /\ recognised (emphasis_char cfg x) after (last d 32) = true.
Proof.
  intros R E N. destruct (run_emphasis_ends url cfg _ _ _ _ _ _ R E) as [R1 R2]. cbn [hd last] in *. destruct d as [|c d]; [easy|]. cbn [first_byte hd last_byte] in *. split; auto. now rewrite (last_default _ 32 42).
Qed.
Lemma run_code inner before after x a ks : run url cfg inner before after (Elem x a ks) = true -> code_element x = true ->
  exists d, ks = [Text d] /\ quiet_code d = true /\ (inner = None -> forallb (fun c => negb (existsb (N.eqb c) [91; 92; 93])) d = true).
Proof.
  intros R E. assert (K : kind_of (Elem x a ks) = Some KCode) by (cbn [kind_of]; now rewrite (strong_not_code x E), E). 
  destruct ks as [|[d|y c gs|d|gs|d] [|k2 r2]]; unfold run in R; rewrite K in R; try discriminate. apply andb_true_iff in R as [R1 R2]. exists d. repeat split; auto. intros ->. exact R2.
Qed.
Lemma run_kinds inner before after n : run url cfg inner before after n = true ->
  (exists d, n = Text d /\ text_ok inner d = true) \/ (exists x a ks, n = Elem x a ks /\ strong_element x || em_element x = true) \/ (exists x a ks, n = Elem x a ks /\ code_element x = true) \/
  kind_of n = Some KLink.
Proof.
  intros R. destruct n as [d|x a ks|d|ks|d]; [left; exists d; split; auto; cbn [run kind_of] in R; destruct inner; auto; now apply andb_true_iff in R as [R _]| |discriminate R|discriminate R|discriminate R]. right. cbn [kind_of].
  destruct (strong_element x || em_element x) eqn:E; [left; eauto|]. destruct (code_element x) eqn:C; [right; left; eauto|]. right. right.
  destruct (beqb x (b "a")) eqn:A; auto. exfalso. assert (K : kind_of (Elem x a ks) = None) by (cbn [kind_of]; now rewrite E, C, A).
  destruct ks as [|[d|y c gs|d|gs|d] [|k2 r2]]; unfold run in R; rewrite K in R; discriminate.
Qed.
(** The elements other than links *)
Lemma lead_leaf inner before after n : (forall q, inner = Some q -> forall ks, q ks = true -> forall s, exists s', lead_list isb s ks = (s', ks) /\ still s') ->
  run url cfg inner before after n = true -> kind_of n <> Some KLink -> kind_of n <> Some KText ->
  forall s, exists s', lead isb s n = (s', [n]) /\ still s'.
Proof.
  intros Hin R K1 K2 s. destruct (run_kinds _ _ _ _ R) as [(d & -> & _)|[(x & a & ks & -> & E)|[(x & a & ks & -> & C)|K]]]; [now elim K2| | |congruence].
  - destruct (emphasis_inline x E) as [I1 I2]. pose proof (run_emphasis _ _ _ _ _ _ _ _ R E) as Rk. destruct inner as [q|].
    + destruct Rk as [Q _]. rewrite lead_elem, inline_effect, inline_pre, I2 by auto. cbv zeta. rewrite lead_kids_eq. destruct (Hin q eq_refl ks Q (visit EInline s)) as (s' & -> & St). eexists. split; [reflexivity|]. now apply still_visit.
    + destruct Rk as (d & -> & Q). destruct (quiet_calm d Q) as (F & S & N). destruct (emphasis_ends _ _ _ _ _ _ R E N) as [R1 R2].
      apply text_inside; auto; try (now rewrite ?inline_effect, ?inline_pre, I2 by auto); eapply recognised_space; eauto.
  - destruct (run_code _ _ _ _ _ _ R C) as (d & -> & Q & _). destruct (quiet_code_calm d Q) as (F & S & N & T). pose proof (code_inline x C) as I1. destruct (trimmed_ends d T N) as [H L].
    destruct (beqb x (b "code")) eqn:E2.
    + rewrite lead_elem, inline_effect, inline_pre, E2 by auto. eexists. split; [reflexivity|]. now right.
    + apply text_inside; auto; now rewrite ?inline_effect, ?inline_pre, E2 by auto.
Qed.
Lemma lead_runs inner ks : (forall q, inner = Some q -> forall ks, q ks = true -> forall s, exists s', lead_list isb s ks = (s', ks) /\ still s') ->
  forall prev before s, runs url cfg inner prev before ks = true -> (still s \/ before = 32) -> (still s \/ prev = KText \/ match ks with n :: _ => first_byte n <> 32 | [] => True end) ->
  exists s', lead_list isb s ks = (s', ks) /\ still s'.
Proof.
  intros Hin. induction ks as [|n r IH]; intros prev before s R B H.
  - cbn [runs] in R. apply negb_true_iff, N.eqb_neq in R. exists s. split; auto. now destruct B.
  - cbn [runs] in R. apply andb_true_iff in R as [R1 R2]. destruct (kind_of n) as [k|] eqn:K; [|discriminate]. apply andb_true_iff in R2 as [Ap R2].
    assert (C : kind_of n = Some KText \/ kind_of n <> Some KText) by (destruct (kind_of n) as [[]|]; auto; right; discriminate). cbn [lead_list]. destruct C as [C|C].
    + destruct n as [d|x a ks|d|ks|d]; try discriminate; [|exfalso; cbn [kind_of] in C; destruct (strong_element x || em_element x); [discriminate|]; destruct (code_element x); [discriminate|]; destruct (beqb x (b "a")); discriminate].
      injection K as <-. assert (R1' : busy_text d = true) by (cbn [run kind_of] in R1; destruct inner; [now apply andb_true_iff in R1 as [R1 _]|now apply quiet_is_busy]). destruct (busy_calm d R1') as (F & S & N). cbn [lead]. rewrite lead_keeps; auto.
      * destruct (IH KText (last_byte (Text d)) (Some (has_suffix [cSP] d), snd s) R2) as (s' & -> & St); [|auto|eauto]. cbn [last_byte]. change cSP with 32. rewrite (suffix_last d 42 N).
        destruct (last d 42 =? 32) eqn:L; [right; now apply N.eqb_eq|]. left. now left.
      * destruct H as [H|[->|H]]; auto; [discriminate Ap|]. right. destruct d; [easy|]. exact H.
    + assert (L : exists s1, lead isb s n = (s1, [n]) /\ still s1).
      { destruct (kind_of n) as [[]|] eqn:Kn; try congruence; try (eapply lead_leaf; [exact Hin|exact R1|congruence|congruence]).
        destruct (run_link _ _ _ _ _ _ R1 Kn) as (x & a & ks & q & -> & -> & Eq & _ & Q & _). rewrite lead_elem, inline_effect, inline_pre by reflexivity. change (beqb (b "a") (b "code")) with false. cbv zeta iota.
        rewrite lead_kids_eq. destruct (Hin q Eq ks Q (visit EInline s)) as (s' & -> & St). eexists. split; [reflexivity|]. now apply still_visit. }
      destruct L as (s1 & -> & St). destruct (IH k (last_byte n) s1 R2) as (s' & -> & St'); auto. exists s'. split; auto.
Qed.
Lemma lead_filled inner ks s : (forall q, inner = Some q -> forall ks, q ks = true -> forall s, exists s', lead_list isb s ks = (s', ks) /\ still s') ->
  filled (runs url cfg inner) ks = true -> exists s', lead_list isb s ks = (s', ks) /\ still s'.
Proof.
  intros Hin F. destruct ks as [|n r]; [discriminate|]. cbn [filled] in F. apply andb_true_iff in F as [F R]. apply andb_true_iff in F as [F _]. apply (lead_runs inner (n :: r) Hin KLink 32); auto. right. right. apply negb_true_iff in F. now apply N.eqb_neq.
Qed.
Lemma lead_paragraph ks s : paragraph url cfg ks = true -> exists s', lead_list isb s ks = (s', ks).
Proof.
  intros P. destruct (lead_filled (Some (link_content url cfg)) ks s) as (s' & E & _); eauto. intros q [= <-] ks' Q s0. apply (lead_filled None); auto. discriminate.
Qed.
(** Backwards *)
Lemma trail_run inner before after n tr : (forall q, inner = Some q -> forall ks, q ks = true -> forall tr, trail_list isb tr ks = (false, ks)) ->
  run url cfg inner before after n = true -> (tr = true -> last_byte n <> 32) -> trail isb tr n = (false, n).
Proof.
  intros Hin R L. assert (Tx : forall x a d tr, effect_of isb x = EInline -> is_preformatted x = false -> last d 32 <> 32 -> trail isb tr (Elem x a [Text d]) = (false, Elem x a [Text d])).
  { intros x a d t Ex Px Ld. rewrite trail_elem, Ex, Px. cbn [visit_back trail_kids trail]. cbv zeta. destruct t; auto. now rewrite (trim_suffix_same d 32). }
  destruct (run_kinds _ _ _ _ R) as [(d & -> & Q)|[(x & a & ks & -> & E)|[(x & a & ks & -> & C)|K]]].
  - cbn [trail]. destruct tr; auto. rewrite (trim_suffix_same d 42); auto.
  - destruct (emphasis_inline x E) as [I1 I2]. pose proof (run_emphasis _ _ _ _ _ _ _ _ R E) as Rk. destruct inner as [q|].
    + destruct Rk as [Q _]. rewrite trail_elem, inline_effect, inline_pre, I2 by auto. cbv zeta. rewrite trail_kids_eq. cbn [visit_back]. now rewrite (Hin q eq_refl ks Q).
    + destruct Rk as (d & -> & Q). destruct (quiet_calm d Q) as (F & S & N). destruct (emphasis_ends _ _ _ _ _ _ R E N) as [R1 R2]. apply Tx; try (now rewrite ?inline_effect, ?inline_pre, I2 by auto). eapply recognised_space; eauto.
  - destruct (run_code _ _ _ _ _ _ R C) as (d & -> & Q & _). destruct (quiet_code_calm d Q) as (F & S & N & T). pose proof (code_inline x C) as I1. destruct (trimmed_ends d T N) as [H Ld].
    destruct (beqb x (b "code")) eqn:E2.
    + rewrite trail_elem, inline_effect, inline_pre, E2 by auto. reflexivity.
    + apply Tx; auto; now rewrite ?inline_effect, ?inline_pre, E2 by auto.
  - destruct (run_link _ _ _ _ _ _ R K) as (x & a & ks & q & -> & -> & Eq & _ & Q & _). rewrite trail_elem, inline_effect, inline_pre by reflexivity. change (beqb (b "a") (b "code")) with false. cbv zeta iota.
    rewrite trail_kids_eq. cbn [visit_back]. now rewrite (Hin q Eq ks Q).
Qed.
Lemma trail_runs inner ks : (forall q, inner = Some q -> forall ks, q ks = true -> forall tr, trail_list isb tr ks = (false, ks)) ->
  forall prev before, runs url cfg inner prev before ks = true -> ks <> [] -> forall tr, trail_list isb tr ks = (false, ks).
Proof.
  intros Hin. induction ks as [|n r IH]; intros prev before R N tr; [easy|]. cbn [runs] in R. apply andb_true_iff in R as [R1 R2]. destruct (kind_of n) as [k|] eqn:K; [|discriminate]. apply andb_true_iff in R2 as [_ R2].
  cbn [trail_list]. destruct r as [|m r].
  - cbn [trail_list]. cbn [runs] in R2. rewrite (trail_run inner before 32 n tr Hin); auto. intros _. apply negb_true_iff in R2. now apply N.eqb_neq.
  - rewrite (IH k (last_byte n)) by (auto; discriminate). rewrite (trail_run inner before (first_byte m) n false Hin); auto. discriminate.
Qed.
Lemma trail_filled inner ks tr : (forall q, inner = Some q -> forall ks, q ks = true -> forall tr, trail_list isb tr ks = (false, ks)) -> filled (runs url cfg inner) ks = true -> trail_list isb tr ks = (false, ks).
Proof. intros Hin F. destruct ks as [|n r]; [discriminate|]. apply filled_runs in F. eapply trail_runs; eauto. discriminate. Qed.
Lemma trail_paragraph ks tr : paragraph url cfg ks = true -> trail_list isb tr ks = (false, ks).
Proof. intros P. apply (trail_filled (Some (link_content url cfg))); auto. intros q [= <-] ks' Q t. apply (trail_filled None); auto. discriminate. Qed.
Lemma lead_list_app s ks ms : lead_list isb s (ks ++ ms) = let '(s1, ks') := lead_list isb s ks in let '(s2, ms') := lead_list isb s1 ms in (s2, ks' ++ ms').
Proof.
  revert s. induction ks as [|k ks IH]; intros s; cbn [app lead_list]; [now destruct (lead_list isb s ms)|]. destruct (lead isb s k) as [s1 k']. rewrite IH. destruct (lead_list isb s1 ks) as [s2 ks']. destruct (lead_list isb s2 ms) as [s3 ms']. now rewrite app_assoc.
Qed.
Lemma trail_list_app ks ms t : trail_list isb t (ks ++ ms) = let '(t1, ms') := trail_list isb t ms in let '(t2, ks') := trail_list isb t1 ks in (t2, ks' ++ ms').
Proof.
  induction ks as [|k l IH]; cbn [app trail_list]; [now destruct (trail_list isb t ms)|]. rewrite IH. destruct (trail_list isb t ms) as [t1 m']. destruct (trail_list isb t1 l) as [t2 l']. now destruct (trail isb t2 k).
Qed.
(** ** White space in texts *)
Lemma flowed_collapse d : forall sp, flowed_text sp d = collapse_ws_from sp d.
Proof. induction d as [|c d IH]; intros sp; auto. cbn [flowed_text collapse_ws_from]. rewrite is_ws_sep, !IH. reflexivity. Qed.
Definition cond (s : cstate) : bool := (match fst s with None => true | Some e => e end) && negb (snd s).
Lemma flowed_start d : flowed_text true d = match flowed_text false d with c :: r => if c =? 32 then r else c :: r | [] => [] end.
Proof.
  destruct d as [|c d]; auto. cbn [flowed_text]. destruct (separates c) eqn:C; auto. replace (c =? 32) with false; auto. unfold separates in C. lia.
Qed.
Lemma flowed_lead s sp d : cond s = sp -> lead_text s d = if is_empty (flowed_text sp d) then None else Some (flowed_text sp d).
Proof.
  intros <-. unfold lead_text, collapse_ws. rewrite <- flowed_collapse. fold (cond s). destruct (cond s).
  - rewrite flowed_start. cbv zeta. change cSP with 32. destruct (flowed_text false d); reflexivity.
  - cbv zeta. destruct (flowed_text false d); reflexivity.
Qed.
Lemma flowed_none d : flowed_text false d = [] -> d = [].
Proof. destruct d as [|c d]; auto. cbn [flowed_text]. destruct (separates c); discriminate. Qed.
Lemma flowed_blank d : flowed_text true d = [] -> ends_blank true d = true.
Proof. induction d as [|c d IH]; auto. cbn [flowed_text ends_blank]. destruct (separates c); [auto|discriminate]. Qed.
Lemma flowed_last x d : forall sp, flowed_text sp d <> [] -> (last (flowed_text sp d) x =? 32) = ends_blank sp d.
Proof.
  induction d as [|c d IH]; intros sp N; [easy|]. cbn [flowed_text ends_blank] in *. destruct (separates c) eqn:C.
  - destruct sp; [now apply IH|]. destruct (flowed_text true d) as [|e r] eqn:E; [cbn; now rewrite flowed_blank|]. rewrite <- E. assert (Nt : flowed_text true d <> []) by congruence. rewrite <- (IH true Nt). rewrite E. reflexivity.
  - destruct (flowed_text false d) as [|e r] eqn:E.
    + apply flowed_none in E. subst d. cbn [last ends_blank]. unfold separates in C. lia.
    + rewrite <- E. assert (Nt : flowed_text false d <> []) by congruence. rewrite <- (IH false Nt). rewrite E. reflexivity.
Qed.
Lemma flowed_all w : forallb separates w = true -> flowed_text true w = [] /\ flowed_text false w = if is_empty w then [] else [32].
Proof.
  induction w as [|c w IH]; auto. cbn [forallb flowed_text is_empty]. intros H. apply andb_true_iff in H as [-> H]. destruct (IH H) as [-> _]. auto.
Qed.
Lemma flowed_tail e w : forallb separates w = true -> e <> [] -> separates (last e 0) = false -> forall sp, flowed_text sp (e ++ w) = flowed_text sp e ++ if is_empty w then [] else [32].
Proof.
  intros W. induction e as [|c e IH]; intros N L sp; [easy|]. destruct e as [|c2 e].
  - cbn [app flowed_text last] in *. rewrite L. cbn [app]. now rewrite (proj2 (flowed_all w W)).
  - change (last (c :: c2 :: e) 0) with (last (c2 :: e) 0) in L. change ((c :: c2 :: e) ++ w) with (c :: ((c2 :: e) ++ w)). remember (c2 :: e) as e' eqn:Ee. cbn [flowed_text]. rewrite !IH by (auto; subst; discriminate).
    destruct (separates c); [destruct sp|]; reflexivity.
Qed.
Definition good (s : cstate) (sp : bool) (prev : kind) : Prop := match prev with KText => fst s = Some sp | _ => cond s = sp /\ visit EInline s = s end.
Lemma visit_twice s : visit EInline (visit EInline s) = visit EInline s.
Proof. now destruct s as [[e|] k]. Qed.
Lemma good_enter s sp prev : good s sp prev -> cond (visit EInline s) = sp.
Proof.
  unfold good, cond. destruct s as [[e|] k]; cbn [visit fst snd negb andb].
  - rewrite andb_true_r. destruct prev; try (intros [H1 H2]; injection H2 as <-; now rewrite andb_true_r in H1). now intros [= ->].
  - destruct prev; try (now intros [H1 _]). discriminate.
Qed.
Lemma still_good s k : still s -> visit EInline s = s -> k <> KText -> good s false k.
Proof. intros [H|H] V K; unfold good, cond; destruct k; try congruence; rewrite H; cbn; auto. Qed.
Lemma good_still s prev : good s false prev -> still s.
Proof. unfold good, still, cond. destruct s as [[[]|] []], prev; cbn; intros H; try discriminate; auto; destruct H; discriminate. Qed.
Lemma lead_code inner before after x a ks s : run url cfg inner before after (Elem x a ks) = true -> code_element x = true -> exists s', lead isb s (Elem x a ks) = (s', [Elem x a ks]) /\ still s' /\ visit EInline s' = s'.
Proof.
  intros R C. destruct (run_code _ _ _ _ _ _ R C) as (d & -> & Q & _). destruct (quiet_code_calm d Q) as (F & S & N & T). pose proof (code_inline x C) as I1. destruct (trimmed_ends d T N) as [H L].
  destruct (beqb x (b "code")) eqn:E2.
  - rewrite lead_elem, inline_effect, inline_pre, E2 by auto. eexists. split; [reflexivity|]. split; [now right|reflexivity].
  - rewrite lead_elem, inline_effect, inline_pre, E2 by auto. cbv zeta. rewrite lead_kids_eq. cbn [lead_list lead]. rewrite lead_keeps by auto. cbn [app]. eexists. split; [reflexivity|].
    split; [|apply visit_twice]. apply still_visit. left. cbn [fst]. change cSP with 32. rewrite (suffix_last d 32 N). now rewrite (proj2 (N.eqb_neq _ _) L).
Qed.
Definition leads_in (q : list node -> bool) : Prop := forall ks sp s, q (snd (flowed_list sp ks)) = true -> cond s = sp -> visit EInline s = s ->
  exists s', lead_list isb s ks = (s', snd (flowed_list sp ks)) /\ still s' /\ fst (flowed_list sp ks) = false.
Lemma flowed_kind sp n : kind_of (snd (flowed sp n)) = kind_of n.
Proof. destruct n as [d|x a ks|d|ks|d]; auto. rewrite flowed_elem. destruct (code_element x); reflexivity. Qed.
Lemma lead_flowed inner n before after prev k sp s : (forall q, inner = Some q -> leads_in q) -> run url cfg inner before after (snd (flowed sp n)) = true -> kind_of n = Some k -> apart_kinds prev k = true -> good s sp prev ->
  exists s', lead isb s n = (s', [snd (flowed sp n)]) /\ good s' (fst (flowed sp n)) k /\ fst (flowed sp n) = (last_byte (snd (flowed sp n)) =? 32).
Proof.
  intros Hin R K Ap G. destruct n as [d|x a ks|d|ks|d]; try discriminate.
  - injection K as <-. cbn [flowed fst snd] in *. assert (Cs : cond s = sp) by (destruct prev; try discriminate Ap; apply G). cbn [lead]. rewrite (flowed_lead s sp d Cs).
    assert (R1 : busy_text (flowed_text sp d) = true) by (cbn [run kind_of] in R; destruct inner; [now apply andb_true_iff in R as [R _]|now apply quiet_is_busy]). destruct (busy_calm _ R1) as (_ & _ & N).
    assert (Em : is_empty (flowed_text sp d) = false) by (destruct (flowed_text sp d); [easy|reflexivity]). rewrite Em. eexists. split; [reflexivity|]. cbn [last_byte]. change cSP with 32. cbn [good fst]. rewrite (suffix_last _ 42 N), (flowed_last 42 d sp N). auto.
  - cbn [kind_of] in K. rewrite flowed_elem in *. pose proof (good_enter s sp prev G) as Ce. destruct (code_element x) eqn:C.
    + cbn [fst snd] in *. rewrite (strong_not_code x C) in K. injection K as <-. destruct (lead_code _ _ _ _ _ _ s R C) as (s' & -> & St & V). exists s'. split; auto. split; [now apply still_good|]. cbn [last_byte kind_of]. now rewrite (strong_not_code x C), C.
    + cbn [fst snd] in *. assert (Main : effect_of isb x = EInline -> is_preformatted x = false -> (exists s', lead_list isb (visit EInline s) ks = (s', snd (flowed_list sp ks)) /\ still s' /\ fst (flowed_list sp ks) = false) -> k <> KText -> last_byte (Elem x a (snd (flowed_list sp ks))) <> 32 ->
        exists s', lead isb s (Elem x a ks) = (s', [Elem x a (snd (flowed_list sp ks))]) /\ good s' (fst (flowed_list sp ks)) k /\ fst (flowed_list sp ks) = (last_byte (Elem x a (snd (flowed_list sp ks))) =? 32)).
      { intros Ex Px (s' & E & St & Sp) Nk Lb. rewrite lead_elem, Ex, Px. cbv zeta. rewrite lead_kids_eq, E. eexists. split; [reflexivity|]. rewrite Sp. split; [apply still_good; auto using still_visit, visit_twice|]. symmetry. now apply N.eqb_neq. }
      destruct (strong_element x || em_element x) eqn:E.
      * injection K as <-. destruct (emphasis_inline x E) as [I1 I2]. apply Main; try (now rewrite ?inline_effect, ?inline_pre, I2 by auto); try discriminate; [|cbn [last_byte kind_of]; rewrite E; discriminate].
        pose proof (run_emphasis _ _ _ _ _ _ _ _ R E) as Rk. destruct inner as [q|].
        { destruct Rk as [Q _]. apply (Hin q eq_refl ks sp _ Q Ce). apply visit_twice. }
        { destruct Rk as (d & Ed & Q). rewrite Ed in R. destruct (quiet_calm d Q) as (F & S & N). destruct (emphasis_ends _ _ _ _ _ _ R E N) as [_ R2]. apply recognised_space in R2. rewrite Ed. destruct (flowed_one sp ks d Ed) as (t & ->).
          cbn [flowed_list flowed snd fst] in *. injection Ed as <-. cbn [lead_list lead]. rewrite (flowed_lead _ sp t Ce). destruct (flowed_text sp t) as [|c r] eqn:Et; [easy|]. cbn [is_empty app]. eexists. split; [reflexivity|]. change cSP with 32.
          assert (Ns : flowed_text sp t <> []) by congruence. pose proof (flowed_last 32 t sp Ns) as Fl. rewrite Et in Fl. rewrite (proj2 (N.eqb_neq _ _) R2) in Fl. split; auto. left. cbn [fst]. rewrite (suffix_last _ 32) by discriminate. now rewrite (proj2 (N.eqb_neq _ _) R2). }
      * destruct (beqb x (b "a")) eqn:A; [|discriminate]. injection K as <-. apply beqb_eq in A. subst x. assert (Kl : kind_of (Elem (b "a") a (snd (flowed_list sp ks))) = Some KLink) by reflexivity.
        destruct (run_link _ _ _ _ _ _ R Kl) as (? & ? & gs & q & [= <- <- <-] & _ & Eq & _ & Q & _). apply Main; try discriminate; [now rewrite inline_effect by reflexivity|reflexivity|].
        apply (Hin q Eq ks sp _ Q Ce). apply visit_twice.
Qed.
Lemma lead_flowed_list inner ks : (forall q, inner = Some q -> leads_in q) -> forall rest prev before sp s, runs url cfg inner prev before (snd (flowed_list sp ks) ++ rest) = true -> good s sp prev ->
  exists s' prev' before', lead_list isb s ks = (s', snd (flowed_list sp ks)) /\ good s' (fst (flowed_list sp ks)) prev' /\ runs url cfg inner prev' before' rest = true /\ (if is_empty ks then before' = before else fst (flowed_list sp ks) = (before' =? 32)).
Proof.
  intros Hin. induction ks as [|n r IH]; intros rest prev before sp s R G.
  - exists s, prev, before. repeat split; auto.
  - rewrite flowed_cons in *. cbn [fst snd app] in *. cbn [runs] in R. apply andb_true_iff in R as [R1 R2]. rewrite flowed_kind in R2. destruct (kind_of n) as [k|] eqn:K; [|discriminate]. apply andb_true_iff in R2 as [Ap R2].
    destruct (lead_flowed inner n _ _ prev k sp s Hin R1 K Ap G) as (s1 & E1 & G1 & L1). destruct (IH rest k _ _ s1 R2 G1) as (s' & prev' & before' & E2 & G2 & R3 & L2).
    exists s', prev', before'. cbn [lead_list]. rewrite E1, E2. split; auto. split; auto. split.
    { exact R3. }
    cbn [is_empty]. destruct r as [|m r]; [|exact L2]. cbn [is_empty] in L2. subst before'. cbn [flowed_list fst]. exact L1.
Qed.
Lemma leads_filled inner : (forall q, inner = Some q -> leads_in q) -> leads_in (filled (runs url cfg inner)).
Proof.
  intros Hin ks sp s F Cs V. assert (Nk : is_empty ks = false) by (destruct ks; [discriminate|reflexivity]). apply filled_runs in F. rewrite <- (app_nil_r (snd _)) in F.
  destruct (lead_flowed_list inner ks Hin [] KLink 32 sp s F (conj Cs V)) as (s' & prev' & before' & E & G & R & L). rewrite Nk in L. cbn [runs] in R. apply negb_true_iff in R. rewrite R in L. rewrite L in G. exists s'. split; auto. split; auto. eapply good_still; eauto.
Qed.
Lemma leads_link q : Some (link_content url cfg) = Some q -> leads_in q.
Proof. intros [= <-]. apply leads_filled. discriminate. Qed.
Lemma lead_cut ks : lead_list isb (None, false) ks = lead_list isb (None, false) (cut_start ks).
Proof. destruct (cut_start_cases ks) as [->|(d & D & E)]; auto. rewrite E at 1. cbn [lead_list]. rewrite lead_blank by now apply blank_one. now destruct (lead_list isb (None, false) (cut_start ks)). Qed.
Lemma cut_snoc q e : e <> [] -> separates (last e 0) = false -> cut_start (q ++ [Text e]) = cut_start q ++ [Text e].
Proof.
  intros N L. destruct q as [|n q].
  - cbn [app cut_start blank_text]. replace (forallb separates e) with false; auto. symmetry. apply not_true_iff_false. intros F. rewrite forallb_forall in F. destruct (exists_last N) as (u & c & ->). rewrite last_last in L. rewrite F in L; [discriminate|]. apply in_app_iff. right. now left.
  - cbn [app cut_start]. now destruct (blank_text n).
Qed.
Lemma lead_line ks : paragraph url cfg (line ks) = true -> exists s ms, lead_list isb (None, false) ks = (s, ms) /\ fits Halfway ms (line ks).
Proof.
  unfold line. intros P. assert (G0 : good (None, false) true KLink) by now split. pose proof leads_link as Hin.
  destruct (cut_end_cases ks) as [E|(q & e & w & -> & W & [(-> & E)|(Ne & Le & E)])]; rewrite E in *.
  - rewrite lead_cut. destruct (leads_filled _ Hin (cut_start ks) true (None, false) P eq_refl eq_refl) as (s & El & _ & _). exists s. eexists. split; [exact El|]. now left.
  - rewrite lead_list_app, lead_cut. destruct (leads_filled _ Hin (cut_start q) true (None, false) P eq_refl eq_refl) as (s & El & St & _). rewrite El. cbn [app lead_list lead].
    assert (Cs : cond s = false). { destruct St as [St| ->]; auto. unfold cond. now rewrite St. }
    rewrite (flowed_lead s false w Cs), (proj2 (flowed_all w W)). destruct w as [|c w]; cbn [is_empty app]; do 2 eexists; (split; [reflexivity|]); [left|right; left]; auto. apply app_nil_r.
  - rewrite (cut_snoc q e Ne Le) in *. rewrite flowed_app in *. cbn [fst snd flowed_list flowed] in *. rewrite lead_list_app, lead_cut. pose proof (filled_runs _ _ P) as R.
    destruct (lead_flowed_list _ (cut_start q) Hin _ KLink 32 true (None, false) R G0) as (s1 & prev' & before' & E1 & G1 & R1 & _). rewrite E1. cbn [lead_list lead]. set (sp := fst (flowed_list true (cut_start q))) in *.
    cbn [runs kind_of] in R1. apply andb_true_iff in R1 as [R1 R2]. apply andb_true_iff in R2 as [Ap _]. assert (Cs : cond s1 = sp) by (destruct prev'; try discriminate Ap; apply G1).
    rewrite (flowed_lead s1 sp (e ++ w) Cs), (flowed_tail e w W Ne Le). assert (Nt : flowed_text sp e <> []) by (cbn [run] in R1; apply andb_true_iff in R1 as [R1 _]; now destruct (busy_calm _ R1) as (_ & _ & ?)).
    destruct (flowed_text sp e) as [|c t] eqn:Et; [easy|]. cbn [is_empty app]. do 2 eexists. split; [reflexivity|]. destruct w as [|c2 w]; cbn [is_empty app]; [left; now rewrite app_nil_r|]. right. right. eexists. exists (c :: t). split; [reflexivity|]. reflexivity.
Qed.
Lemma lead_fits st ks ps : st <> Halfway -> fits st ks ps -> paragraph url cfg ps = true -> exists s ms, lead_list isb (None, false) ks = (s, ms) /\ fits Halfway ms ps.
Proof.
  intros N F P. destruct st; cbn [fits] in F; [subst ps; now apply lead_line|easy|]. destruct (lead_paragraph ps (None, false) P) as (s & E). exists s, ps. split; [|now left]. destruct F as [->| ->]; auto.
  rewrite lead_list_app, E. cbn [lead_list lead lead_text]. change (lead_text s []) with (@None bytes). cbn [app]. now rewrite app_nil_r.
Qed.
Lemma trail_fits ms ps : fits Halfway ms ps -> paragraph url cfg ps = true -> exists ks, trail_list isb true ms = (false, ks) /\ fits Tidy ks ps.
Proof.
  intros F P. cbn [fits] in F. destruct F as [->|[->|(qs & d & Ep & ->)]].
  - exists ps. rewrite (trail_paragraph ps true P). split; auto. now left.
  - exists (ps ++ [Text []]). rewrite trail_list_app. cbn [trail_list trail]. change (trim_suffix_space [32]) with (@nil N). rewrite (trail_paragraph ps false P). split; auto. now right.
  - exists ps. pose proof (trail_paragraph ps false P) as T. rewrite Ep in T. rewrite trail_list_app in T |- *. cbn [trail_list trail] in T |- *. unfold trim_suffix_space. change [cSP] with [32].
    assert (Hs : has_suffix [32] (d ++ [32]) = true) by (unfold has_suffix; rewrite rev_app_distr; reflexivity). rewrite Hs, removelast_last. unfold trim_suffix_space in T. rewrite T, <- Ep. split; [reflexivity|]. now left.
Qed.
(** Documents without the white space between paragraphs *)
Notation apage := (apage url cfg).
Notation apages := (apages url cfg).
Notation acontent := (acontent url cfg).
Notation aitems := (aitems url cfg).
Lemma part_names x k : part_level x = Some k -> In x (b "p" :: map fst heading_names_of).
Proof. unfold part_level. destruct (beqb x (b "p")) eqn:E; [apply beqb_eq in E; intros _; now left|]. intros L. right. apply level_cases in L. now apply (in_map fst) in L. Qed.
Lemma effect_part x k : part_level x = Some k -> effect_of isb x = EBlock /\ is_preformatted x = false.
Proof. intros L. apply part_names in L. unfold effect_of. repeat (destruct L as [<-|L]; [now rewrite Hb|]). destruct L. Qed.
Lemma effect_blocks x : name_in hidden_names x = false -> is_block_name x = true -> effect_of isb x = EBlock.
Proof. intros N1 N2. now apply (effect_block isb Hb). Qed.
Definition first_breaks (ks : list node) : bool := match ks with m :: _ => breaks m | [] => true end.
Lemma lead_anew s n : breaks n = true -> (forall x a ks, n = Elem x a ks -> effect_of isb x = EBlock) -> lead isb s n = lead isb (None, false) n.
Proof. destruct n as [d|x a ks|d|ks|d]; try discriminate. intros _ E. rewrite !lead_elem, (E x a ks eq_refl). reflexivity. Qed.
Lemma group_breaks x a ks : groups x = true -> holds_text x = false -> breaks (Elem x a ks) = false.
Proof.
  intros G Hx. cbn [breaks]. destruct (part_level x) as [k|] eqn:L; [apply part_names in L; exfalso; clear - L Hx G; cbn [map In fst heading_names_of] in L; decompose [or] L; try contradiction; subst x; discriminate|].
  rewrite Hx, orb_false_r. exact (groups_none _ x G (eq_refl : forallb (fun y => negb (groups y)) (map b ["hr"; "pre"; "ul"; "ol"]%string) = true)).
Qed.
Lemma lead_apage st : st <> Halfway -> (forall n B, apage st false n B -> exists ms, lead isb (None, false) n = ((None, false), ms) /\ apages Halfway false ms B /\
     (breaks n = true -> (forall s, lead isb s n = lead isb (None, false) n) /\ exists m, ms = [m] /\ breaks m = true)) /\
  (forall ns B, apages st false ns B -> exists ms, lead_list isb (None, false) ns = ((None, false), ms) /\ apages Halfway false ms B /\
     (first_breaks ns = true -> (forall s, snd (lead_list isb s ns) = ms) /\ first_breaks ms = true)) /\
  (forall js B, acontent st false js B -> exists s ms, lead_list isb (None, false) js = (s, ms) /\ acontent Halfway false ms B) /\
  (forall ks its, aitems st false ks its -> exists ks' its', lead_list isb (None, false) ks = ((None, false), ks') /\ aitems Halfway false ks' its' /\ nonempty_items its' = nonempty_items its).
Proof.
  intros Ns. assert (Bx : forall x a ks ms B, effect_of isb x = EBlock -> lead isb (None, false) (Elem x a ks) = ((None, false), [Elem x a ms]) -> apage Halfway false (Elem x a ms) B ->
    exists ms', lead isb (None, false) (Elem x a ks) = ((None, false), ms') /\ apages Halfway false ms' B /\ (breaks (Elem x a ks) = true -> (forall s, lead isb s (Elem x a ks) = lead isb (None, false) (Elem x a ks)) /\ exists m, ms' = [m] /\ breaks m = true)).
  { intros x a ks ms B E L A. exists [Elem x a ms]. split; auto. split; [now apply apages_one|]. intros Br. split; [intros s; apply lead_anew; auto; now intros ? ? ? [= <- <- <-]|]. exists (Elem x a ms). split; auto. }
  apply apage_all.
  - intros d _ D. exists []. split; [|split; [constructor|discriminate]]. rewrite lead_blank; auto. now apply blank_one.
  - intros d _. exists []. split; [reflexivity|split; [constructor|discriminate]].
  - intros x k a ks ps L F T P. destruct (effect_part x k L) as [E1 E2]. destruct (lead_fits st ks ps Ns F P) as (s' & ms & E & F'). apply (Bx x a ks ms); auto; [|now apply a_part]. rewrite lead_elem, E1, E2. cbv zeta iota. rewrite lead_kids_eq. cbn [visit]. now rewrite E.
  - intros a R. apply (Bx _ a [] []); [now apply effect_blocks| |now apply a_rule]. rewrite lead_elem, effect_blocks by reflexivity. reflexivity.
  - intros a ks i d C R. apply (Bx _ a ks ks); [now apply effect_blocks| |now apply a_pre]. rewrite lead_elem, effect_blocks by reflexivity. reflexivity.
  - intros x a ks its L _ (ks' & its' & E & Q & Ei) O. destruct (list_plain x L) as (N1 & N2 & N3 & _). apply (Bx _ a ks ks'); [now apply effect_blocks| |rewrite <- Ei in *; now apply a_list].
    rewrite lead_elem, effect_blocks, N3 by auto. cbn [visit]. rewrite lead_kids_eq, E. reflexivity.
  - intros x a ks B G Hx _ (s & ms & E & Q). destruct (groups_plain x G) as (N1 & N3 & _). apply (Bx _ a ks ms); [now apply effect_blocks, holds_block| |now apply a_block].
    rewrite lead_elem, (effect_blocks x N1 (holds_block x Hx)), N3. cbn [visit]. rewrite lead_kids_eq, E. reflexivity.
  - intros x a ks B G Hx _ (ms & E & Q & _). destruct (groups_plain x G) as (N1 & N3 & _). exists [Elem x a ms]. split; [|split; [apply apages_one; now apply a_inline|]].
    + rewrite lead_elem, N3. cbv zeta. assert (V : visit (effect_of isb x) (None, false) = (None, false)) by (destruct (effect_group isb Hb x G) as [-> | ->]; reflexivity). now rewrite V, lead_kids_eq, E, V.
    + rewrite group_breaks by auto. discriminate.
  - exists []. split; [reflexivity|]. split; [constructor|]. intros _. split; reflexivity.
  - intros n ns B C _ (ms & E & Q & Hn) _ (ms2 & E2 & Q2 & _). exists (ms ++ ms2). cbn [lead_list]. rewrite E, E2. split; [reflexivity|]. split; [now apply apages_app|]. cbn [first_breaks]. intros Br. destruct (Hn Br) as (Ha & m & -> & Bm). split; [|exact Bm].
    intros s. rewrite Ha, E, E2. reflexivity.
  - discriminate.
  - intros ks B _ (ms & E & Q & _). exists (None, false), ms. split; auto. now apply ac_pages.
  - intros qs ps ks B F P Br _ (ms & E & Q & Hn). destruct (lead_fits st qs ps Ns F P) as (s' & ms' & Ep & F'). destruct (Hn Br) as (Ha & Bm). specialize (Ha s'). rewrite lead_list_app, Ep. destruct (lead_list isb s' ks) as [s2 ms2]. cbn [snd] in Ha. subst ms2.
    exists s2, (ms' ++ ms). split; auto. now apply ac_text.
  - exists [], []. split; [reflexivity|]. split; [constructor|reflexivity].
  - intros d ks its _ D _ (ks' & its' & E & Q & Ei). exists ks', its'. split; [|split; auto]. cbn [lead_list]. rewrite lead_blank by now apply blank_one. now rewrite E.
  - intros a js B ks its _ (s & ms & E1 & Q1) _ (ks' & its' & E & Q & Ei). exists (Elem (b "li") a ms :: ks'), (B :: its'). split; [|split; [now apply ai_item|]].
    + cbn [lead_list]. rewrite lead_elem, effect_blocks by reflexivity. change (is_preformatted (b "li")) with false. cbv iota. cbn [visit]. rewrite lead_kids_eq, E1, E. reflexivity.
    + unfold nonempty_items in *. cbn [filter]. now rewrite Ei.
Qed.
Lemma trail_apage : (forall n B, apage Halfway false n B -> forall t, exists t' m, trail isb t n = (t', m) /\ apage Tidy false m B /\ (breaks n = true -> t' = true /\ breaks m = true)) /\
  (forall ns B, apages Halfway false ns B -> forall t, exists t' ms, trail_list isb t ns = (t', ms) /\ apages Tidy false ms B /\ (first_breaks ns = true -> (t = true -> t' = true) /\ first_breaks ms = true)) /\
  (forall js B, acontent Halfway false js B -> exists t' ms, trail_list isb true js = (t', ms) /\ acontent Tidy false ms B) /\
  (forall ks its, aitems Halfway false ks its -> forall t, exists t' ms, trail_list isb t ks = (t', ms) /\ aitems Tidy false ms its).
Proof.
  apply apage_all; try discriminate.
  - intros x k a ks ps L F T P t. destruct (effect_part x k L) as [E1 E2]. rewrite trail_elem, E1, E2. cbv zeta iota. rewrite trail_kids_eq. cbn [visit_back]. destruct (trail_fits ks ps F P) as (ms & -> & F'). do 2 eexists. split; [reflexivity|]. split; [now apply (a_part _ _ _ _ x k a ms ps)|auto].
  - intros a R t. rewrite trail_elem, effect_blocks by reflexivity. do 2 eexists. split; [reflexivity|]. split; [now apply a_rule|auto].
  - intros a ks i d C R t. rewrite trail_elem, effect_blocks by reflexivity. do 2 eexists. split; [reflexivity|]. split; [now apply (a_pre _ _ _ _ a ks i d)|auto].
  - intros x a ks its L _ IH O t. destruct (list_plain x L) as (N1 & N2 & N3 & _). rewrite trail_elem, effect_blocks, N3 by auto. cbv zeta. cbn [visit_back]. rewrite trail_kids_eq. destruct (IH true) as (t' & ms & -> & Q). do 2 eexists. split; [reflexivity|]. split; [now apply a_list|auto].
  - intros x a ks B G Hx _ IH t. destruct (groups_plain x G) as (N1 & N3 & _). rewrite trail_elem, (effect_blocks x N1 (holds_block x Hx)), N3. cbv zeta. cbn [visit_back]. rewrite trail_kids_eq. destruct IH as (t' & ms & -> & Q). do 2 eexists. split; [reflexivity|]. split; [now apply a_block|auto].
  - intros x a ks B G Hx _ IH t. destruct (groups_plain x G) as (N1 & N3 & _). rewrite trail_elem, N3. cbv zeta. rewrite trail_kids_eq. destruct (IH (visit_back (effect_of isb x) t)) as (t' & ms & -> & Q & _). do 2 eexists. split; [reflexivity|]. split; [now apply a_inline|]. intros Br. pose proof (group_breaks x a ks G Hx). congruence.
  - intros t. do 2 eexists. split; [reflexivity|]. split; [constructor|auto].
  - intros n ns B C _ IH1 _ IH2 t. cbn [trail_list]. destruct (IH2 t) as (t1 & ms & -> & Q2 & _). destruct (IH1 t1) as (t2 & m & -> & Q1 & Br). do 2 eexists. split; [reflexivity|]. split; [now apply as_cons|]. intros H. destruct (Br H). auto.
  - intros ks B _ IH. destruct (IH true) as (t' & ms & -> & Q & _). do 2 eexists. split; [reflexivity|]. now apply ac_pages.
  - intros qs ps ks B F P Br _ IH. rewrite trail_list_app. destruct (IH true) as (t1 & ms & -> & Q & H). destruct (H Br) as [Ht Hb']. rewrite (Ht eq_refl). destruct (trail_fits qs ps F P) as (ms' & -> & F'). do 2 eexists. split; [reflexivity|]. now apply ac_text.
  - intros t. do 2 eexists. split; [reflexivity|]. constructor.
  - intros a js B ks its _ IH1 _ IH2 t. cbn [trail_list]. destruct (IH2 t) as (t1 & ms & -> & Q). rewrite trail_elem, effect_blocks by reflexivity. change (is_preformatted (b "li")) with false. cbv iota zeta. cbn [visit_back]. rewrite trail_kids_eq. destruct IH1 as (t2 & ms' & -> & Q1). do 2 eexists. split; [reflexivity|]. now apply ai_item.
Qed.
Lemma drop_apage : (forall n B, apage Tidy false n B -> snd (drop_last isb n) = [n]) /\ (forall ns B, apages Tidy false ns B -> snd (drop_last_list isb ns) = ns) /\
  (forall js B, acontent Tidy false js B -> True) /\ (forall ks its, aitems Tidy false ks its -> True).
Proof.
  apply apage_all; try discriminate; auto.
  - intros x k a ks ps L _ _ P. destruct (effect_part x k L) as [E1 E2]. rewrite drop_elem, E1. reflexivity.
  - intros. rewrite drop_elem, effect_blocks by reflexivity. reflexivity.
  - intros. rewrite drop_elem, effect_blocks by reflexivity. reflexivity.
  - intros x a ks its L _ _ _. destruct (list_plain x L) as (N1 & N2 & N3 & _). rewrite drop_elem, (effect_blocks x N1 N2). reflexivity.
  - intros x a ks B G Hx _ _. destruct (groups_plain _ G) as (N1 & N3 & _). rewrite drop_elem, (effect_blocks x N1 (holds_block x Hx)). reflexivity.
  - intros x a ks B G Hx _ IH. rewrite drop_elem. destruct (effect_group isb Hb x G) as [-> | ->]; auto. rewrite drop_kids_eq. destruct (drop_last_list isb ks) as [f l]. cbn [snd] in *. now subst l.
  - intros n ns B C _ H _ H0. cbn [drop_last_list]. destruct (drop_last_list isb ns) as [f l]. cbn [snd] in *. subst l. destruct f; auto. destruct (drop_last isb n) as [f2 k']. cbn [snd] in *. now subst k'.
Qed.
Lemma collapse_apage st ns B : st <> Halfway -> apages st false ns B -> exists ms, collapse isb (Doc ns) = Doc ms /\ apages Tidy false ms B.
Proof.
  intros Ns Q. unfold collapse. cbn [kids node_name]. destruct ns as [|n ns].
  - exists []. split; auto. inversion Q. constructor.
  - change (is_preformatted (b "#document")) with false. cbv iota. cbn [with_kids]. unfold collapse_kids. destruct (proj1 (proj2 (lead_apage st Ns)) _ _ Q) as (ms & -> & Q1 & _). cbn [snd].
    destruct (proj1 (proj2 trail_apage) _ _ Q1 true) as (t & ms' & -> & Q2 & _). cbn [snd]. rewrite (proj1 (proj2 drop_apage) _ _ Q2). eauto.
Qed.
End collapsing.
Section keeping.
Variable url : bytes -> bytes.
Variable cfg : config.
Notation apages := (apages url cfg).
Lemma apage_weaken lo : (forall n B, apage url cfg lo false n B -> apage url cfg lo true n B) /\ (forall ns B, apages lo false ns B -> apages lo true ns B) /\
  (forall js B, acontent url cfg lo false js B -> acontent url cfg lo true js B) /\ (forall ks its, aitems url cfg lo false ks its -> aitems url cfg lo true ks its).
Proof. apply apage_all; try discriminate; intros; try (econstructor; now eauto). Qed.
(** The comments behind lists *)
Lemma inline_comments n : all_names (fun x => name_in inline_names x) n = true -> forall st, list_end_comments st n = [n].
Proof.
  induction n as [d|x a ks IH|d|ks IH|d] using node_induction; intros A st; auto; cbn [all_names] in *.
  - apply andb_true_iff in A as [A1 A2]. rewrite comments_elem, inline_list_not by auto. cbn [andb]. cbv zeta. repeat f_equal. revert st. clear A1. induction IH as [|k r H _ IH]; intros st; auto.
    cbn [forallb] in A2. apply andb_true_iff in A2 as [A2 A3]. cbn [comments_kids]. rewrite H by auto. cbn [app]. now rewrite IH.
  - rewrite comments_doc. repeat f_equal. revert st. induction IH as [|k r H _ IH]; intros st; auto.
    cbn [forallb] in A. apply andb_true_iff in A as [A2 A3]. cbn [comments_kids]. rewrite H by auto. cbn [app]. now rewrite IH.
Qed.
Lemma paragraph_comments ps : paragraph url cfg ps = true -> forall st ks, comments_kids st (ps ++ ks) = ps ++ comments_kids st ks.
Proof.
  intros P st ks. destruct (paragraph_pieces url cfg ps P) as [F _]. clear P. induction F as [|n ps H _ IH]; auto. cbn [app comments_kids]. rewrite inline_comments by now apply inline_all. cbn [app]. now rewrite IH.
Qed.
Lemma fits_comments qs ps : fits Tidy qs ps -> paragraph url cfg ps = true -> forall st ks, comments_kids st (qs ++ ks) = qs ++ comments_kids st ks.
Proof. intros [->| ->] P st ks; [now apply paragraph_comments|]. rewrite <- !app_assoc, paragraph_comments by auto. reflexivity. Qed.
Lemma comments_breaks st ks : first_breaks ks = true -> first_breaks (comments_kids st ks) = true.
Proof.
  destruct ks as [|[d|x a js|d|js|d] ks]; auto.
Qed.
Lemma end_apage : (forall n B, apage url cfg Tidy true n B -> forall st, exists m, apage url cfg Tidy true m B /\
    (list_end_comments st n = [m] \/ exists x a ks, m = Elem x a ks /\ list_name x = true /\ next_list_stack st = true /\ list_end_comments st n = [m; Comment end_comment_data])) /\
  (forall ns B, apages Tidy true ns B -> forall st, apages Tidy true (comments_kids st ns) B) /\
  (forall js B, acontent url cfg Tidy true js B -> forall st, acontent url cfg Tidy true (comments_kids st js) B) /\
  (forall ks its, aitems url cfg Tidy true ks its -> forall st, aitems url cfg Tidy true (comments_kids st ks) its).
Proof.
  assert (Nl : forall x, list_name x = false -> is_list_name x = false).
  { intros x. unfold list_name, name_in, is_list_name. cbn [existsb]. now rewrite orb_false_r. }
  apply apage_all; try discriminate.
  - intros x k a ks ps L F T P st. exists (Elem x a ks). split; [now apply (a_part _ _ _ _ x k a ks ps)|left]. rewrite comments_elem. rewrite Nl by (apply part_names in L; destruct (list_name x) eqn:E; auto; apply list_cases in E; clear - L E; cbn in L; destruct E as [->| ->]; intuition discriminate).
    cbn [andb]. cbv zeta. pose proof (fits_comments ks ps F P st []) as E. rewrite app_nil_r in E. rewrite E. cbn [comments_kids]. now rewrite app_nil_r.
  - intros a R st. exists (Elem (b "hr") a []). split; [now apply a_rule|now left].
  - intros a ks i d C R st. exists (Elem (b "pre") a ks). split; [now apply a_pre|left]. rewrite comments_elem. cbn [andb]. cbv zeta.
    apply code_in_cases in C as [(-> & _)|(c & -> & _)]; reflexivity.
  - intros x a ks its L _ IH O st. rewrite comments_elem. cbv zeta. match goal with |- context [comments_kids ?s ks] => set (st' := s) end.
    exists (Elem x a (comments_kids st' ks)). split; [apply a_list; auto|]. destruct (is_list_name x && next_list_stack st) eqn:E; [right|now left].
    apply andb_true_iff in E as [_ E]. eauto 10.
  - intros x a ks B G Hx _ IH st. exists (Elem x a (comments_kids st ks)). split; [apply a_block; auto|left]. rewrite comments_elem, Nl by now apply groups_level. reflexivity.
  - intros x a ks B G Hx _ IH st. exists (Elem x a (comments_kids st ks)). split; [apply a_inline; auto|left]. rewrite comments_elem, Nl by now apply groups_level. reflexivity.
  - intros st. constructor.
  - intros n ns B C _ IH1 _ IH2 st. cbn [comments_kids]. destruct (IH1 (ns :: st)) as (m & Q & [E|(x & a & ks & -> & L & _ & E)]); rewrite E; cbn [app].
    + apply as_cons; auto.
    + apply as_ended; auto.
  - intros x a ks ns B C He L _ IH1 _ IH2 st. cbn [comments_kids].
    destruct (IH1 ((Comment end_comment_data :: ns) :: st)) as (m & Q & [E|(x' & a' & ks' & -> & L' & Z & E)]); [|discriminate].
    assert (Em : exists ks', m = Elem x a ks'). { rewrite comments_elem in E. cbv zeta in E. injection E as <- _. eauto. }
    destruct Em as (ks' & ->). rewrite E. cbn [app list_end_comments]. apply as_ended; auto.
  - intros ks B _ IH st. now apply ac_pages.
  - intros qs ps ks B F P Br _ IH st. rewrite (fits_comments qs ps F P). apply ac_text; auto. now apply comments_breaks.
  - intros st. constructor.
  - intros a js B ks its _ IH1 _ IH2 st. cbn [comments_kids]. rewrite comments_elem. change (is_list_name (b "li")) with false. cbn [andb app]. cbv zeta. apply ai_item; auto.
Qed.
Variable sort : forall A : Type, list (Z * A) -> list (Z * A).
Hypothesis Hsort : sorts sort.
Lemma prepared_article m us u ks : In UseBase us -> forallb (article url cfg) (shown_all ks) = true ->
  exists ms, prepared sort (converter_with m us) u (Doc ks) = Doc ms /\ apages Tidy true ms (flat_map (article_blocks url) (shown_all ks)).
Proof.
  intros Ib A. rewrite prepared_eq. set (e := env_of sort (converter_with m us) u). set (B := flat_map (article_blocks url) (shown_all ks)).
  pose proof (articles_apages url cfg _ A) as Q0. fold B in Q0.
  assert (Rm : forall x, is_remove_type (tag_type_of e x) = name_in hidden_names x) by (intros; now apply removes_hidden).
  assert (Bl : forall x, name_in hidden_names x = false -> is_block_type (tag_type_of e x) = is_block_name x).
  { intros x H. unfold e. rewrite tags_hidden by auto. rewrite H. now destruct (is_block_name x). }
  destruct (Hsort _ (flat_map use_pre us)) as [Pm S].
  set (IB := fun d => exists ns, d = Doc ns /\ apages Tidy false ns B).
  set (IC := fun d => exists ns, d = Doc ns /\ apages Tidy true ns B).
  assert (Co : forall st ns, st <> Halfway -> apages st false ns B -> IB (pre_collapse e (Doc ns))).
  { intros st ns Ns Q. destruct (collapse_apage _ Bl url cfg st ns B Ns Q) as (ms & E1 & Q1). exists ms. auto. }
  assert (WB : forall d, IB d -> IC d). { intros d (ns & -> & Q). exists ns. split; auto. now apply apage_weaken. }
  assert (StepC : forall q h d, In (q, h) (flat_map use_pre us) -> (1100 <= q)%Z -> IC d -> IC (h e d)).
  { intros q h d J Lq (ns & -> & Q). apply use_pre_cases in J as [(-> & -> & _) | [(-> & -> & _) | [(-> & -> & _) | [(-> & c & ->) | (-> & -> & _)]]]]; try lia.
    unfold commonmark_end_comments. destruct (disable_end_comment c); [exists ns; auto|]. exists (comments_kids [] ns). split; [reflexivity|]. now apply end_apage. }
  assert (StepsC : forall l d, (forall y, In y l -> In y (flat_map use_pre us) /\ (1100 <= fst y)%Z) -> IC d -> IC (fold_left (fun d h => h e d) (map snd l) d)).
  { induction l as [|[q h] l IH]; intros d Sb A'; auto. cbn [map snd fold_left]. apply IH; [intros; apply Sb; now right|].
    destruct (Sb (q, h) (or_introl eq_refl)). eapply StepC; eauto. }
  assert (StepsB : forall l d, by_priority l -> (forall y, In y l -> In y (flat_map use_pre us) /\ (1000 <= fst y)%Z) -> IB d -> IC (fold_left (fun d h => h e d) (map snd l) d)).
  { induction l as [|[q h] l IH]; intros d Sl Sb A'; auto. cbn [map snd fold_left]. destruct (Sb (q, h) (or_introl eq_refl)) as [J Lq].
    assert (Sl' : by_priority l) by now inversion Sl. assert (Hl : forall y, In y l -> (q <= fst y)%Z) by exact (sorted_after _ [] l (q, h) Sl).
    pose proof J as J'. apply use_pre_cases in J' as [(-> & -> & _) | [(-> & -> & _) | [(-> & -> & _) | [(-> & c & ->) | (-> & -> & _)]]]]; cbn [fst] in Lq; try lia.
    - apply IH; [auto|intros; apply Sb; now right|]. destruct A' as (ns & -> & Q). now apply (Co Tidy ns).
    - apply StepsC. { intros y Iy. split; [apply Sb; now right|now apply Hl]. } apply (StepC 1100%Z); auto. lia. }
  assert (StepsA : forall l, by_priority l -> (forall y, In y l -> In y (flat_map use_pre us)) -> In (1000%Z, pre_collapse) l ->
    IC (fold_left (fun d h => h e d) (map snd l) (Doc (shown_all ks)))).
  { induction l as [|[q h] l IH]; intros Sl Sb Jc; [destruct Jc|]. cbn [map snd fold_left]. pose proof (Sb (q, h) (or_introl eq_refl)) as J.
    assert (Sl' : by_priority l) by now inversion Sl. assert (Hl : forall y, In y l -> (q <= fst y)%Z) by exact (sorted_after _ [] l (q, h) Sl).
    assert (Nx : (q < 1000)%Z -> In (1000%Z, pre_collapse) l). { intros Lt. destruct Jc as [[= -> ->]|Jc]; auto. lia. }
    assert (Qt : Forall form (shown_all ks)) by exact (proj1 (proj2 (apage_form url cfg Fresh)) _ _ Q0).
    pose proof J as J'. apply use_pre_cases in J' as [(-> & -> & _) | [(-> & -> & _) | [(-> & -> & _) | [(-> & c & ->) | (-> & -> & _)]]]].
    - unfold pre_remove. rewrite (removed_doc _ Rm), shown_all_twice. apply IH; auto. intros; apply Sb; now right. apply Nx. lia.
    - apply StepsB; auto. { intros y Iy. split; [apply Sb; now right|now apply Hl]. } now apply (Co Fresh).
    - rewrite commonmark_pre_article by auto. apply IH; auto. intros; apply Sb; now right. apply Nx. lia.
    - exfalso. destruct Jc as [[= ]|Jc]. apply Hl in Jc. cbn in Jc. lia.
    - rewrite strike_pre_article by auto. apply IH; auto. intros; apply Sb; now right. apply Nx. lia. }
  destruct (pre_order sort Hsort us Ib) as (k & rest & E & R).
  assert (J : In (1000%Z, pre_collapse) (sort _ (flat_map use_pre us))).
  { eapply Permutation_in; [apply Permutation_sym; exact Pm|]. apply in_flat_map. exists UseBase. split; auto. right. now left. }
  assert (Sub : forall y, In y (sort _ (flat_map use_pre us)) -> In y (flat_map use_pre us)) by (intros y Iy; eapply Permutation_in; eauto).
  rewrite E in *. cbn [repeat app map snd fold_left]. unfold pre_remove at 2. rewrite (removed_doc _ Rm). cbn [repeat app] in *.
  apply StepsA. now inversion S. intros y Iy. apply Sub. now right. destruct J as [[=]|J]; auto.
Qed.
End keeping.
