(** Successful runs of the command line program: the outputs on disk. *)
From Coq Require Import List NArith Arith Bool String Lia.
From Verif Require Import Bytes BytesFacts NetUrl Cli SpecCli CliFacts CliFacts2 CliFacts3.
Import ListNotations.
Open Scope N_scope.
Open Scope list_scope.

(** the effects of a sequence of events, nobody else acting *)
Inductive effects : list event -> fs -> fs -> Prop :=
| effs_nil f : effects [] f f
| effs_cons ev tr f f1 f2 : effect ev f f1 -> effects tr f1 f2 -> effects (ev :: tr) f f2.
Lemma effects_snoc tr ev f f1 f2 : effects tr f f1 -> effect ev f1 f2 -> effects (tr ++ [ev]) f f2.
Proof. induction 1; intros E; cbn; econstructor; eauto. constructor. Qed.
Lemma effects_app t1 t2 f f2 : effects (t1 ++ t2) f f2 -> exists f1, effects t1 f f1 /\ effects t2 f1 f2.
Proof.
  revert f. induction t1 as [|ev t1 IH]; intros f H; [exists f; split; [constructor|exact H]|].
  cbn in H. inversion H; subst. destruct (IH _ H5) as (f' & A & B). exists f'. split; [econstructor; eauto|exact B].
Qed.
Lemma trace_snoc p tr p1 ev p2 : trace p tr p1 -> does p1 ev p2 -> trace p (tr ++ [ev]) p2.
Proof. induction 1; intros D; cbn; econstructor; eauto. constructor. Qed.
Lemma history_trace other f0 p0 tr f p : history other f0 p0 tr f p -> trace p0 tr p.
Proof. induction 1; [constructor|now apply trace_snoc with (1 := IHhistory)|assumption]. Qed.
Lemma history_effects f0 p0 tr f p : history alone f0 p0 tr f p -> effects tr f0 f.
Proof. induction 1 as [| |? ? ? ? ? ? []]; [constructor|now apply effects_snoc with (1 := IHhistory)]. Qed.

Definition keeps (f f' : fs) : Prop :=
  (forall q x, names f q = Some x -> names f' q = Some x) /\ (forall i d, content f i = Some d -> content f' i = Some d).
Lemma keeps_refl f : keeps f f. Proof. split; auto. Qed.
Lemma keeps_trans f1 f2 f3 : keeps f1 f2 -> keeps f2 f3 -> keeps f1 f3.
Proof. intros [A B] [C D]. split; auto. Qed.

(** one output, exclusively opened *)
Lemma output_effects q h d f f' :
  effects [EvOpen q Excl (Opened h); EvWrite h d true; EvClose h true] f f' ->
  names f q = None /\ keeps f f' /\ names f' q = Some (File h) /\ content f' h = Some d.
Proof.
  intros E. inversion E as [|? ? ? f1 ? E1 E2]; subst. inversion E2 as [|? ? ? f2 ? E3 E4]; subst.
  inversion E4 as [|? ? ? f3 ? E5 E6]; subst. inversion E6; subst. inversion E5; subst.
  inversion E1 as [| | | | | | | |? ? ? ? Hn Hc| | | | |]; subst.
  inversion E3 as [| | | | | | | | | |? ? ? ? old new Ho Hw| | |]; subst.
  cbn in Ho. rewrite N.eqb_refl in Ho. injection Ho as <-. specialize (Hw eq_refl eq_refl). subst new.
  split; [exact Hn|]. split; [|cbn; rewrite ?beqb_refl, ?N.eqb_refl; auto].
  split; cbn.
  - intros q' x Hx. destruct (beqb q' q) eqn:Eq; [apply beqb_eq in Eq; subst; congruence|exact Hx].
  - intros i d' Hd. destruct (i =? h) eqn:Ei; [apply N.eqb_eq in Ei; subst; congruence|exact Hd].
Qed.

Section run.
Variable selector : Type.
Variable parse_group : bytes -> option (list selector).
Variable convert : config selector -> bytes -> option bytes.
Variable hash : bytes -> bytes.
Variable rel : path -> path -> option path.
Variable split_pattern : path -> path.
Variable usage version_text : bytes.
Notation main := (cli_main selector parse_group convert hash rel split_pattern usage version_text).
Notation parse := (parse_flags selector parse_group).
Notation ok := (all_ok selector convert).

Lemma all_ok_effects c t ins tr f f' :
  c_overwrite _ c = false -> ok c t ins tr -> effects tr f f' ->
  keeps f f' /\
  (forall q d, In (q, d) (written tr) -> names f q = None /\ exists i, names f' q = Some (File i) /\ content f' i = Some d) /\
  (forall p d i d0, In (EvRead p (Some d)) tr -> names f p = Some (File i) -> content f i = Some d0 -> d = d0).
Proof.
  intros O A. revert f. induction A as [|i n rest d md t1 t2 t3 R E W A IH]; intros f Ef.
  { inversion Ef; subst. split; [apply keeps_refl|]. split; [intros q d []|intros p d i d0 []]. }
  apply effects_app in Ef. destruct Ef as (f1 & E1 & Ef). apply effects_app in Ef. destruct Ef as (f2 & E2 & E3).
  destruct (IH _ E3) as (K3 & W3 & R3).
  assert (K1 : f1 = f /\ written t1 = [] /\ (forall a p m h, t1 <> a ++ [EvOpen p m (Opened h)]) /\
               forall p d1 j d0, In (EvRead p (Some d1)) t1 -> names f p = Some (File j) -> content f j = Some d0 -> d1 = d0).
  { destruct R.
    - inversion E1; subst. split; [reflexivity|]. split; [reflexivity|]. split; [intros [|? ?] ? ? ?; discriminate|intros ? ? ? ? []].
    - inversion E1 as [|? ? ? fx ? X1 X2]; subst. inversion X2; subst. inversion X1 as [| | | |? j ? ? Hn Hc| | | | | | | | |]; subst.
      split; [reflexivity|]. split; [reflexivity|]. split; [intros [|? [|? ?]] ? ? ?; discriminate|].
      intros p' d1 j' d0 [Heq|[]] Hp Hd. injection Heq as <- <-. congruence. }
  destruct K1 as (-> & W1 & N1 & R1).
  assert (N2 : forall a p m h, t2 <> a ++ [EvOpen p m (Opened h)]).
  { destruct W; intros a p' m' h' X; destruct a as [|? [|? [|? [|? ?]]]]; discriminate. }
  assert (K2 : keeps f f2 /\
     (forall q d', In (q, d') (written t2) -> names f q = None /\ exists i, names f2 q = Some (File i) /\ content f2 i = Some d') /\
     forall p d1, ~ In (EvRead p (Some d1)) t2).
  { assert (G : forall q h, effects [EvOpen q Excl (Opened h); EvWrite h md true; EvClose h true] f f2 ->
       keeps f f2 /\
       (forall q' d', In (q', d') (written [EvOpen q Excl (Opened h); EvWrite h md true; EvClose h true]) ->
          names f q' = None /\ exists i, names f2 q' = Some (File i) /\ content f2 i = Some d')).
    { intros q h X. destruct (output_effects _ _ _ _ _ X) as (Hn & K & Hf & Hc). split; [exact K|].
      cbn [written]. rewrite N.eqb_refl. intros q' d' [Heq|[]]. injection Heq as <- <-. eauto. }
    destruct W as [n md r|n md m h ->|n md m h ->].
    - inversion E2 as [|? ? ? fx ? X1 X2]; subst. inversion X2; subst. inversion X1; subst.
      split; [apply keeps_refl|]. split; [intros q d' []|]. intros p d1 [H|[]]. discriminate.
    - rewrite O in *. destruct (G _ _ E2) as (G1 & G2). split; [exact G1|]. split; [exact G2|].
      intros p d1 [H|[H|[H|[]]]]; discriminate.
    - rewrite O in *. destruct (G _ _ E2) as (G1 & G2). split; [exact G1|]. split; [exact G2|].
      intros p d1 [H|[H|[H|[]]]]; discriminate. }
  destruct K2 as (K2 & W2 & R2).
  split; [now apply keeps_trans with f2|]. split.
  - intros q d' Hq. rewrite !written_app_closed, W1 in Hq by auto. cbn [app] in Hq. apply in_app_iff in Hq.
    destruct Hq as [Hq|Hq].
    + destruct (W2 _ _ Hq) as (Hn & j & Hf & Hc). split; [exact Hn|]. exists j. destruct K3 as [K3a K3b]. auto.
    + destruct (W3 _ _ Hq) as (Hn & X). split; [|exact X]. destruct K2 as [K2a _].
      destruct (names f q) eqn:Eq; [|reflexivity]. apply K2a in Eq. congruence.
  - intros p d1 j d0 Hr Hp Hd. apply in_app_iff in Hr. destruct Hr as [Hr|Hr]; [now apply (R1 p d1 j d0)|].
    apply in_app_iff in Hr. destruct Hr as [Hr|Hr]; [now apply R2 in Hr|].
    destruct K2 as [K2a K2b]. apply (R3 p d1 j d0); auto.
Qed.

(** ** The outputs of a successful conversion *)
Definition input_names (c : config selector) (tr : list event) : list path :=
  if is_empty (c_input _ c) then [b "output"] else found tr.
Lemma written_other ev tr : (forall p m h, ev <> EvOpen p m (Opened h)) -> written (ev :: tr) = written tr.
Proof. intros N. destruct ev; try reflexivity. destruct r; [now destruct (N p m h)|reflexivity..]. Qed.
Lemma found_none tr : (forall g r, ~ In (EvGlob g r) tr) -> found tr = [].
Proof.
  induction tr as [|ev tr IH]; intros N; [reflexivity|].
  assert (N' : forall g r, ~ In (EvGlob g r) tr) by (intros g r H; apply (N g r); now right).
  destruct ev; cbn; auto. destruct (N pattern r). now left.
Qed.
Lemma all_ok_no_glob c t ins tr : ok c t ins tr -> forall g r, ~ In (EvGlob g r) tr.
Proof.
  induction 1 as [|i n rest d md t1 t2 t3 R E W A IH]; intros g r H; [destruct H|].
  apply in_app_iff in H. destruct H as [H|H]; [destruct R; cbn in H; intuition discriminate|].
  apply in_app_iff in H. destruct H as [H|H]; [destruct W; cbn in H; intuition discriminate|]. now apply IH in H.
Qed.
Lemma names_length gb seen ps outs : output_names hash rel gb seen ps = Some outs -> List.length outs = List.length ps.
Proof.
  revert seen outs. induction ps as [|p ps IH]; intros seen outs H; cbn in H; [now injection H as <-|].
  destruct (if existsb _ seen then _ else _); [|discriminate].
  destruct (output_names hash rel gb _ ps) eqn:E; [|discriminate]. injection H as <-. cbn. f_equal. now apply IH in E.
Qed.
Lemma map_snd_combine {A B} (l1 : list A) (l2 : list B) : List.length l2 = List.length l1 -> map snd (combine l1 l2) = l2.
Proof.
  revert l2. induction l1 as [|x l1 IH]; intros [|y l2] L; cbn in *; try discriminate; [reflexivity|]. f_equal. apply IH. lia.
Qed.
Lemma flat_none {A} (l : list (input * bytes)) (ds : list A) :
  (forall x, In x l -> snd (fst x) = None) -> List.length ds = List.length l ->
  flat_map (fun x : input * bytes * A => match snd (fst (fst x)) with None => [snd x] | Some _ => [] end) (combine l ds) = ds.
Proof.
  revert ds. induction l as [|x l IH]; intros [|d ds] N L; cbn in *; try discriminate; [reflexivity|].
  rewrite (N x (or_introl eq_refl)). cbn. f_equal. apply IH; [intros y Hy; apply N; now right|lia].
Qed.
Lemma flat_none_fst (l : list (input * bytes)) :
  (forall x, In x l -> snd (fst x) = None) ->
  flat_map (fun i : input * bytes => match snd (fst i) with None => [fst (fst i)] | Some _ => [] end) l = map (fun x => fst (fst x)) l.
Proof.
  induction l as [|x l IH]; intros N; [reflexivity|]. cbn. rewrite (N x (or_introl eq_refl)). cbn. f_equal. apply IH.
  intros y Hy. apply N. now right.
Qed.
Lemma map_fst_combine (l1 : list input) (l2 : list bytes) :
  List.length l2 = List.length l1 -> map (fun x : input * bytes => fst (fst x)) (combine l1 l2) = map fst l1.
Proof.
  revert l2. induction l1 as [|x l1 IH]; intros [|y l2] L; cbn in *; try discriminate; [reflexivity|]. f_equal. apply IH. lia.
Qed.
Lemma outputs_of_run i o e args c tr :
  parse args = inl (c, []) -> c_version _ c = false -> trace (main i o e args) tr (Exit 0) ->
  exists outs mds,
    output_names hash rel (split_pattern (clean_path (c_input _ c))) [] (input_names c tr) = Some outs /\
    input_names c tr <> [] /\
    (c_input _ c <> [] -> files_read tr = found tr) /\
    List.length (data_read tr) = List.length (input_names c tr) /\
    Forall2 (fun d md => convert c d = Some md) (data_read tr) mds /\
    (c_output _ c = [] -> (exists md, mds = [md] /\ printed tr = [md ++ [cNL]]) /\ written tr = []) /\
    (has_suffix [47] (c_output _ c) = true -> written tr = combine (map (join_path (c_output _ c)) outs) mds /\ printed tr = []) /\
    (c_output _ c <> [] -> has_suffix [47] (c_output _ c) = false ->
       (exists md, mds = [md] /\ written tr = [(c_output _ c, md)]) /\ printed tr = []).
Proof.
  intros Ep Ev T. apply main_trace in T. destruct T as (pipe & -> & T). apply exec_trace in T.
  destruct T as [(X & _)|(_ & [(r & _ & X)|[(r & c' & _ & X & X')|(c' & X & _ & C)]])]; try discriminate.
  { rewrite Ep in X. discriminate. }
  { rewrite Ep in X. injection X as <-. congruence. }
  rewrite Ep in X. injection X as <-.
  destruct C as [inputs ev t t1 t2 t3 outs Hl Hk He Ho A ->].
  destruct (all_ok_data _ _ _ _ _ _ A) as (ds & mds & L & F1 & F2 & HD & HW & HP & HR).
  assert (Lo := names_length _ _ _ _ Ho). rewrite map_length in Lo.
  rewrite map_snd_combine in HW by exact Lo.
  assert (Lc : List.length (combine inputs outs) = List.length inputs) by (rewrite combine_length, Lo; apply Nat.min_id).
  assert (Pre : forall t4, written (t1 ++ t2 ++ t4) = written t4 /\ printed (t1 ++ t2 ++ t4) = printed t4 /\
                           data_read (t1 ++ t2 ++ t4) = data_read t4 /\ files_read (t1 ++ t2 ++ t4) = files_read t4 /\
                           found (t1 ++ t2 ++ t4) = found t4).
  { intros t4. destruct Hk; destruct He; repeat split; reflexivity. }
  destruct (Pre t3) as (P1 & P2 & P3 & P4 & P5).
  assert (F0 : found t3 = []) by (apply found_none; eapply all_ok_no_glob; exact A).
  assert (Hev : forall p m h, ev <> EvOpen p m (Opened h)) by (destruct Hl; discriminate).
  assert (Lm : List.length mds = List.length inputs).
  { rewrite <- Lc, <- L. symmetry. clear -F1. now induction F1; cbn; f_equal. }
  assert (HW' : written (ev :: t1 ++ t2 ++ t3) = match t with ToStdout => [] | _ => combine (opened_names selector c t outs) mds end).
  { rewrite written_other by exact Hev. now rewrite P1, HW. }
  assert (HP' : printed (ev :: t1 ++ t2 ++ t3) = match t with ToStdout => map (fun md => md ++ [cNL]) mds | _ => [] end).
  { destruct Hl; cbn [printed]; now rewrite P2, HP. }
  assert (ID : input_names c (ev :: t1 ++ t2 ++ t3) = map fst inputs /\ data_read (ev :: t1 ++ t2 ++ t3) = ds /\
               (c_input _ c <> [] -> files_read (ev :: t1 ++ t2 ++ t3) = map fst inputs)).
  { destruct Hl as [m ms Hi|d Hi Hp].
    - assert (AN : forall x, In x (combine (map (fun p : path => (p, @None bytes)) (m :: ms)) outs) -> snd (fst x) = None).
      { intros [x y] Hx. apply in_combine_l in Hx. apply in_map_iff in Hx. destruct Hx as (p & <- & _). reflexivity. }
      unfold input_names. destruct (c_input _ c) eqn:Ei; [congruence|]. cbn [is_empty found data_read files_read].
      rewrite P5, F0, P3, P4, HD, HR, app_nil_r, flat_none, flat_none_fst by auto.
      rewrite map_fst_combine by exact Lo. rewrite map_map. cbn [fst]. rewrite map_id. auto.
    - unfold input_names. rewrite Hi. cbn [is_empty data_read]. split; [reflexivity|]. split; [|congruence].
      rewrite P3, HD. destruct outs as [|n [|? ?]]; try discriminate. cbn [combine List.length] in *.
      destruct ds as [|d' [|? ?]]; try discriminate. inversion F2; subst. cbn in *. subst. reflexivity. }
  destruct ID as (I1 & I2 & I3).
  exists outs, mds. rewrite I1, I2, HW', HP'. split; [exact Ho|]. split.
  { destruct Hl; discriminate. }
  split.
  { intros Hi. rewrite I3 by exact Hi. unfold input_names in I1. destruct (c_input _ c); [congruence|]. now rewrite <- I1. }
  split; [rewrite map_length; now rewrite L, Lc|]. split; [exact F1|].
  assert (One : (List.length inputs <= 1)%nat -> exists md, mds = [md]).
  { intros Hn. rewrite <- Lm in Hn. destruct mds as [|md [|? ?]]; [|eauto|cbn in Hn; lia]. exfalso. cbn in Lm. destruct Hl; discriminate. }
  destruct Hk as [Hout Hn|Hs|r Hout Hs Hn Hr].
  - split; [|split; [rewrite Hout; discriminate|congruence]]. intros _. destruct (One Hn) as (md & ->). eauto.
  - split; [intros X; rewrite X in Hs; discriminate|]. split; [auto|]. intros _ X. congruence.
  - split; [congruence|]. split; [congruence|]. intros _ _. split; [|reflexivity].
    destruct (One Hn) as (md & ->). exists md. split; [reflexivity|].
    assert (outs <> []) by (intros ->; destruct Hl; discriminate). destruct outs as [|? [|? ?]]; [congruence|reflexivity..].
Qed.

(** alone and without overwriting: what is on disk at the end *)
Lemma on_disk i o e args c f0 tr f :
  parse args = inl (c, []) -> c_overwrite _ c = false -> history alone f0 (main i o e args) tr f (Exit 0) ->
  (forall q d, In (q, d) (written tr) -> names f0 q = None /\ exists n, names f q = Some (File n) /\ content f n = Some d) /\
  (forall p d n d0, In (EvRead p (Some d)) tr -> names f0 p = Some (File n) -> content f0 n = Some d0 -> d = d0).
Proof.
  intros Ep Eo H. assert (T := history_trace _ _ _ _ _ _ H). assert (Ef := history_effects _ _ _ _ _ H).
  apply main_trace in T. destruct T as (pipe & -> & T). apply exec_trace in T.
  destruct T as [(X & _)|(_ & [(r & -> & X)|[(r & c' & -> & X & X')|(c' & X & _ & C)]])]; try discriminate.
  { split; [intros q d []|]. intros p d n d0 [Y|[]]. discriminate. }
  { split; [intros q d []|]. intros p d n d0 [Y|[]]. discriminate. }
  rewrite Ep in X. injection X as <-.
  destruct C as [inputs ev t t1 t2 t3 outs Hl Hk He Ho A ->].
  inversion Ef as [|? ? ? fa ? Ea Eb]; subst. apply effects_app in Eb. destruct Eb as (fb & Eb & Ec).
  apply effects_app in Ec. destruct Ec as (fc & Ec & Ed).
  assert (fa = f0) as -> by (destruct Hl; now inversion Ea).
  assert (fb = f0) as ->.
  { destruct Hk; inversion Eb as [|? ? ? fx ? Y1 Y2]; subst; auto. inversion Y2; subst. now inversion Y1. }
  assert (Kc : (forall q x, names f0 q = Some x -> names fc q = Some x) /\ content fc = content f0).
  { destruct He; inversion Ec as [|? ? ? fx ? Y1 Y2]; subst; [auto| |]; inversion Y2; subst; inversion Y1; subst; auto. }
  destruct Kc as (Kc1 & Kc2).
  destruct (all_ok_effects _ _ _ _ _ _ Eo A Ed) as (K & W & R).
  assert (Hev : forall p m h, ev <> EvOpen p m (Opened h)) by (destruct Hl; discriminate).
  assert (W12 : written (ev :: t1 ++ t2 ++ t3) = written t3).
  { rewrite written_other by exact Hev. destruct Hk; destruct He; reflexivity. }
  rewrite W12. split.
  - intros q d Hq. destruct (W _ _ Hq) as (Hn & X). split; [|exact X].
    destruct (names f0 q) eqn:Eq; [|reflexivity]. apply Kc1 in Eq. congruence.
  - intros p d n d0 Hr Hp Hd. apply (R p d n d0); [|now apply Kc1|now rewrite Kc2].
    destruct Hr as [->|Hr]; [inversion Hl|]. apply in_app_iff in Hr.
    destruct Hr as [Hr|Hr]; [destruct Hk; cbn in Hr; intuition discriminate|]. apply in_app_iff in Hr.
    destruct Hr as [Hr|Hr]; [destruct He; cbn in Hr; intuition discriminate|exact Hr].
Qed.
End run.
