(** Concrete runs of the command line program, and the facts in the words of SpecCli.v. *)
From Coq Require Import List NArith Arith Bool String Lia.
From Verif Require Import Bytes BytesFacts Cli SpecCli CliFacts CliFacts2 CliFacts3 CliFacts4 CliSim.
Import ListNotations.
Open Scope N_scope.
Open Scope list_scope.

Lemma w_no_change w i o e args f0 tr f p ev f' p' :
  keeps_files w args -> history anything f0 (program w i o e args) tr f p -> does p ev p' -> effect ev f f' ->
  (forall n, content f n <> None -> ~ In n (created tr) -> content f' n = content f n) /\
  (forall q x, names f q = Some x -> names f' q = Some x).
Proof. intros K. now apply no_change. Qed.
Lemma w_crash w i o e args f0 tr f p q n d :
  keeps_files w args -> history alone f0 (program w i o e args) tr f p ->
  names f0 q = Some (File n) -> content f0 n = Some d -> names f q = Some (File n) /\ content f n = Some d.
Proof. intros K. eapply crash_safe. exact K. Qed.
Lemma w_existing_fails w i o e args f0 tr f q m k x ev p' f' :
  keeps_files w args -> history anything f0 (program w i o e args) tr f (OpenFile q m k) -> names f q = Some x ->
  does (OpenFile q m k) ev p' -> effect ev f f' -> f' = f /\ exists err, p' = WriteStderr err (Exit 1).
Proof. intros K H. eapply existing_fails; [exact K|exact H]. Qed.
Lemma w_success w i o e args c f0 tr f q d :
  accepts w args c -> c_overwrite _ c = false -> history alone f0 (program w i o e args) tr f (Exit 0) ->
  In (q, d) (written tr) -> names f0 q = None.
Proof. intros A O H W. eapply on_disk in H; [|exact A|exact O]. now apply H in W. Qed.
Lemma w_flag w args : (forall a, In a args -> contains (b "output-overwrite") a = false) -> keeps_files w args.
Proof. intros H. apply (unmentioned (w_selector w) (w_parse w) (w_convert w) (w_hash w) (w_rel w) (w_split w) (w_usage w)). intros a Ha M. unfold mentions in M. rewrite (H a Ha) in M. discriminate. Qed.

Lemma names_of_stems hash rel gb inputs outs :
  (forall p, In p inputs -> exists stem, stem_of p stem) ->
  output_names hash rel gb [] inputs = Some outs ->
  Forall2 (fun p out => exists stem, stem_of p stem /\
     (out = stem ++ b ".md" \/ exists r, rel gb p = Some r /\ out = stem ++ b "." ++ firstn 10 (hash r) ++ b ".md")) inputs outs.
Proof.
  intros S H. apply output_names_shape in H. induction H as [|p o ps os H F IH]; constructor.
  - destruct (S p (or_introl eq_refl)) as (stem & Hs). exists stem. split; [exact Hs|].
    rewrite (stem_base _ _ Hs) in H. exact H.
  - apply IH. intros q Hq. apply S. now right.
Qed.
Lemma names_distinct hash rel gb inputs outs :
  (forall r, (10 <= List.length (hash r))%nat) -> NoDup inputs ->
  (forall p, In p inputs -> exists stem, stem_of p stem) ->
  (forall p q rp rq, In p inputs -> In q inputs -> p <> q -> rel gb p = Some rp -> rel gb q = Some rq ->
     firstn 10 (hash rp) <> firstn 10 (hash rq)) ->
  (forall p q r sp sq, In p inputs -> In q inputs -> rel gb q = Some r -> stem_of p sp -> stem_of q sq ->
     sp <> sq ++ b "." ++ firstn 10 (hash r)) ->
  output_names hash rel gb [] inputs = Some outs -> NoDup outs.
Proof.
  intros L ND S H1 H2. apply output_names_distinct; auto.
  intros p q r Hp Hq Hr. destruct (S p Hp) as (sp & Sp). destruct (S q Hq) as (sq & Sq).
  rewrite (stem_base _ _ Sp), (stem_base _ _ Sq). now apply (H2 p q r sp sq).
Qed.
Lemma names_collision hash rel gb r :
  rel gb (b "b/x.html") = Some r -> ~ In 47 (hash r) -> exists inputs outs,
  NoDup inputs /\ output_names hash rel gb [] inputs = Some outs /\ ~ NoDup outs.
Proof.
  intros Hr Hs. eexists _, _. split; [|split; [exact (output_names_collide hash rel gb r Hr Hs)|]].
  - assert (D : b "a/x.html" <> b "b/x.html") by discriminate.
    repeat constructor; cbn [In]; intros H.
    + destruct H as [H|[H|[]]]; [now symmetry in H|discriminate].
    + destruct H as [H|[]]. discriminate.
    + destruct H.
  - intros ND. inversion ND as [|? ? _ ND']; subst. inversion ND' as [|? ? N _]; subst. apply N. now left.
Qed.
Lemma names_below hash rel gb out inputs outs name :
  has_suffix (b "/") out = true -> (forall p, In p inputs -> exists stem, stem_of p stem) -> (forall r, ~ In 47 (hash r)) ->
  output_names hash rel gb [] inputs = Some outs -> In name outs ->
  ~ In 47 name /\
  join_path out name = (if beqb (clean_path out) (b ".") then [] else if beqb (clean_path out) (b "/") then b "/" else clean_path out ++ b "/") ++ name.
Proof.
  intros Hs S Hh H Hn. apply names_of_stems in H; [|exact S].
  destruct (forall2_in _ _ _ _ H Hn) as (p & _ & stem & Hst & E).
  assert (Sf : slash_free stem) by now apply stem_slash_free in Hst.
  assert (X : slash_free name /\ exists a, name = a ++ b ".md").
  { destruct E as [->|(r & _ & ->)].
    - split; [|eauto]. intros I. apply in_app_iff in I. destruct I as [I|I]; [now apply Sf|]. cbn in I. intuition discriminate.
    - split; [|exists (stem ++ b "." ++ firstn 10 (hash r)); now rewrite <- !app_assoc].
      intros I. apply in_app_iff in I. destruct I as [I|I]; [now apply Sf|]. apply in_app_iff in I.
      destruct I as [I|I]; [cbn in I; intuition discriminate|]. apply in_app_iff in I. destruct I as [I|I].
      + apply (Hh r). rewrite <- (firstn_skipn 10 (hash r)). apply in_app_iff. now left.
      + cbn in I. intuition discriminate. }
  destruct X as (Sn & a & Ea). split; [exact Sn|].
  assert (L : (3 <= List.length name)%nat) by (rewrite Ea, app_length; cbn; lia).
  apply join_below; auto; intros ->; cbn in L; lia.
Qed.
Lemma w_exit_status w i o e args tr code :
  trace (program w i o e args) tr (Exit code) ->
  (code = 0%nat /\ Forall (fun ev => ~ failed ev /\ ~ is_stderr ev) tr) \/
  (code = 1%nat /\ exists tr0 err, tr = tr0 ++ [EvStderr err] /\ Forall (fun ev => ~ is_stdout ev /\ ~ is_stderr ev) tr0).
Proof. apply exit_status. Qed.
Lemma w_no_panic w i o e args tr p : trace (program w (Some i) (Some o) (Some e) args) tr p -> p <> Panic.
Proof. apply no_panic. Qed.
Lemma w_table_options w args c rest :
  parse_flags (w_selector w) (w_parse w) args = inl (c, rest) ->
  c_skip_empty_rows _ c = true \/ c_header_promotion _ c = true \/ c_span_cells _ c <> [] \/ c_presentation _ c = true \/
  c_newlines _ c <> [] \/ c_padding _ c <> [] -> c_table _ c = true.
Proof. apply table_options. Qed.
Lemma w_rejected w i o e args err tr code :
  parse_flags (w_selector w) (w_parse w) args = inr err -> err <> HelpRequested ->
  trace (program w i o e args) tr (Exit code) -> code = 1%nat /\ tr = [EvStderr err].
Proof.
  intros E N T. apply main_trace in T. destruct T as (pipe & _ & T).
  rewrite (violation_stops _ _ _ _ _ _ _ _ _ _ _ E N) in T.
  apply trace_step in T. destruct T as [(_ & X)|(ev & p1 & t & -> & D & T)]; [discriminate|]. inversion D; subst.
  apply trace_step in T. destruct T as [(-> & X)|(ev & p2 & t' & -> & D' & T)]; [|inversion D']. injection X as ->. auto.
Qed.
Lemma w_several w i o e args c g m1 m2 ms tr code :
  accepts w args c -> has_suffix (b "/") (c_output _ c) = false ->
  trace (program w i o e args) (EvGlob g (Some (m1 :: m2 :: ms)) :: tr) (Exit code) ->
  code = 1%nat /\ exists err, tr = [EvStderr err].
Proof. intros A S. eapply several_inputs; [exact A|exact S]. Qed.
Lemma w_one_source w i o e args c rest tr p :
  parse_flags (w_selector w) (w_parse w) args = inl (c, rest) -> trace (program w i o e args) tr p ->
  (c_input _ c <> [] -> forall r, ~ In (EvStdin r) tr) /\
  (c_input _ c = [] -> (forall q r, ~ In (EvRead q r) tr) /\ (forall q r, ~ In (EvGlob q r) tr)).
Proof. apply one_source. Qed.
Lemma w_outputs w i o e args c tr :
  accepts w args c -> c_version _ c = false -> trace (program w i o e args) tr (Exit 0) ->
  exists outs mds,
    output_names (w_hash w) (w_rel w) (w_split w (clean_path (c_input _ c))) [] (inputs_of c tr) = Some outs /\
    inputs_of c tr <> [] /\
    (c_input _ c <> [] -> files_read tr = found tr) /\
    List.length (data_read tr) = List.length (inputs_of c tr) /\
    Forall2 (fun d md => w_convert w c d = Some md) (data_read tr) mds /\
    (c_output _ c = [] -> (exists md, mds = [md] /\ printed tr = [md ++ [10]]) /\ written tr = []) /\
    (has_suffix (b "/") (c_output _ c) = true -> written tr = combine (map (join_path (c_output _ c)) outs) mds /\ printed tr = []) /\
    (c_output _ c <> [] -> has_suffix (b "/") (c_output _ c) = false ->
       (exists md, mds = [md] /\ written tr = [(c_output _ c, md)]) /\ printed tr = []).
Proof. apply outputs_of_run. Qed.
Lemma w_on_disk w i o e args c f0 tr f :
  accepts w args c -> c_overwrite _ c = false -> history alone f0 (program w i o e args) tr f (Exit 0) ->
  (forall q d, In (q, d) (written tr) -> exists n, names f q = Some (File n) /\ content f n = Some d) /\
  (forall p d n d0, In (EvRead p (Some d)) tr -> names f0 p = Some (File n) -> content f0 n = Some d0 -> d = d0).
Proof.
  intros A O H. eapply on_disk in H; [|exact A|exact O]. destruct H as [H1 H2]. split; [|exact H2].
  intros q d Hq. now apply H1 in Hq.
Qed.

(** ** Examples *)
Definition sim_hash (s : bytes) : bytes := map (fun c => 97 + c mod 16) (rev s) ++ b "0123456789".
(** The conversion copies; there are no selectors. *)
Definition sim_world : world :=
  {| w_selector := unit; w_parse := fun _ => None; w_convert := fun _ d => Some d; w_hash := sim_hash; w_rel := fun _ p => Some p;
     w_split := fun p => p; w_usage := b "help"; w_version := b "version" |}.
Definition two_args : list bytes := [b "--input"; b "*.html"; b "--output=out/"].
Definition two_inputs : list (path * bytes) := [(b "in/a.html", b "A"); (b "in/b.html", b "B")].
Definition two_files : fs := files [b "in"; b "out/"] two_inputs.
Definition old_files : fs := files [b "in"; b "out/"] (two_inputs ++ [(b "out/b.md", b "old")]).
Definition sim_glob (g : bytes) : list path := if beqb g (b "*.html") then map fst two_inputs else [].
Definition sim (f : fs) (args : list bytes) (glob : bytes -> list path) :=
  simulate (b "S") glob f 100 (program sim_world (Some false) (Some true) (Some true) args).
Lemma sim_history f args glob : let '(tr, f', p) := sim f args glob in
  history alone f (program sim_world (Some false) (Some true) (Some true) args) tr f' p.
Proof. apply simulated. Qed.

Lemma keeps_two : keeps_files sim_world two_args.
Proof. apply w_flag. intros a [<-|[<-|[<-|[]]]]; reflexivity. Qed.
Lemma two_run : keeps_files sim_world two_args /\
  exists tr f, history alone two_files (program sim_world (Some false) (Some true) (Some true) two_args) tr f (Exit 0) /\
    written tr = [(b "out/a.md", b "A"); (b "out/b.md", b "B")].
Proof.
  split; [exact keeps_two|]. pose proof (sim_history two_files two_args sim_glob) as H.
  destruct (sim two_files two_args sim_glob) as [[tr f] p] eqn:E.
  assert (p = Exit 0) by (apply (f_equal snd) in E; vm_compute in E; congruence). subst p. exists tr, f. split; [exact H|].
  apply (f_equal (fun x => written (fst (fst x)))) in E. cbn [fst] in E. rewrite <- E. vm_compute. reflexivity.
Qed.
Lemma two_run_disk : exists tr f, history alone two_files (program sim_world (Some false) (Some true) (Some true) two_args) tr f (Exit 0) /\
  file_at f (b "out/a.md") = Some (b "A") /\ file_at f (b "out/b.md") = Some (b "B").
Proof.
  pose proof (sim_history two_files two_args sim_glob) as H.
  destruct (sim two_files two_args sim_glob) as [[tr f] p] eqn:E.
  assert (p = Exit 0) by (apply (f_equal snd) in E; vm_compute in E; congruence). subst p. exists tr, f. split; [exact H|].
  apply (f_equal (fun x => snd (fst x))) in E. cbn [fst snd] in E. rewrite <- E. split; vm_compute; reflexivity.
Qed.
(** cutting a run short *)
Lemma history_prefix f0 p0 t1 t2 f p :
  history alone f0 p0 (t1 ++ t2) f p -> exists f1 p1, history alone f0 p0 t1 f1 p1 /\ trace p1 t2 p /\ effects t1 f0 f1.
Proof.
  intros H. assert (T := history_trace _ _ _ _ _ _ H). assert (E := history_effects _ _ _ _ _ H).
  apply effects_app in E. destruct E as (f1 & E1 & _).
  assert (S : exists p1, trace p0 t1 p1 /\ trace p1 t2 p).
  { clear -T. revert p0 T. induction t1 as [|ev t1 IH]; intros p0 T; [exists p0; split; [constructor|exact T]|].
    cbn in T. inversion T; subst. destruct (IH _ H4) as (p1 & A & B). exists p1. split; [econstructor; eauto|exact B]. }
  destruct S as (p1 & T1 & T2). exists f1, p1. split; [now apply history_of|auto].
Qed.
Lemma old_run : exists tr f k, history alone old_files (program sim_world (Some false) (Some true) (Some true) two_args) tr f
    (OpenFile (b "out/b.md") Excl k) /\ names f (b "out/b.md") = Some (File 2) /\ written tr = [(b "out/a.md", b "A")].
Proof.
  pose proof (sim_history old_files two_args sim_glob) as H.
  destruct (sim old_files two_args sim_glob) as [[tr f] p] eqn:E.
  assert (T : exists e, tr = firstn 7 tr ++ EvOpen (b "out/b.md") Excl AlreadyExists :: [EvStderr e]).
  { apply (f_equal (fun x => fst (fst x))) in E. cbn [fst] in E. vm_compute in E. subst tr. eexists. reflexivity. }
  assert (W : written (firstn 7 tr) = [(b "out/a.md", b "A")]).
  { apply (f_equal (fun x => written (firstn 7 (fst (fst x))))) in E. cbn [fst] in E. rewrite <- E. vm_compute. reflexivity. }
  destruct T as (e & T). rewrite T in H. apply history_prefix in H. destruct H as (f1 & p1 & H & T2 & Ef).
  inversion T2 as [|? ? ? ? ? D T3]; subst. inversion D; subst. exists (firstn 7 tr), f1, k.
  split; [exact H|]. split; [|exact W].
  exact (proj1 (w_crash _ _ _ _ _ _ _ _ _ (b "out/b.md") 2 (b "old") keeps_two H eq_refl eq_refl)).
Qed.
Definition over_args : list bytes := [b "--input"; b "*.html"; b "--output"; b "out/"; b "--output-overwrite"].
Lemma overwrite_crash : exists w args f0 tr f p q n d,
  history alone f0 (program w (Some false) (Some true) (Some true) args) tr f p /\
  names f0 q = Some (File n) /\ content f0 n = Some d /\ d <> [] /\ content f n = Some [].
Proof.
  pose proof (sim_history old_files over_args sim_glob) as H.
  destruct (sim old_files over_args sim_glob) as [[tr f] p] eqn:E.
  assert (T : tr = firstn 8 tr ++ skipn 8 tr) by now rewrite firstn_skipn.
  rewrite T in H. apply history_prefix in H. destruct H as (f1 & p1 & H & _ & Ef).
  exists sim_world, over_args, old_files, (firstn 8 tr), f1, p1, (b "out/b.md"), 2, (b "old").
  split; [exact H|]. split; [reflexivity|]. split; [reflexivity|]. split; [discriminate|].
  assert (F : exists t0, firstn 8 tr = t0 ++ [EvOpen (b "out/b.md") Trunc (Opened 2)]).
  { apply (f_equal (fun x => firstn 8 (fst (fst x)))) in E. cbn [fst] in E. rewrite <- E. vm_compute.
    eexists [_;_;_;_;_;_;_]. reflexivity. }
  destruct F as (t0 & F). rewrite F in Ef. apply effects_app in Ef. destruct Ef as (f2 & _ & Ef).
  inversion Ef as [|? ? ? f3 ? E1 E2]; subst. inversion E2; subst. inversion E1; subst; cbn; reflexivity.
Qed.
Lemma missing_run : exists tr, trace (program sim_world (Some false) (Some true) (Some true) [b "--input"; b "nothing"]) tr (Exit 1) /\
  tr = [EvGlob (b "nothing") (Some []); EvStat (b "nothing") StatFailed; EvStderr (NoFilesFound (b "nothing"))].
Proof.
  eexists. split; [|reflexivity]. eapply trace_cons; [apply does_glob|]. eapply trace_cons; [apply does_stat|].
  eapply trace_cons; [apply does_stderr|constructor].
Qed.
Lemma several_run : exists tr, trace (program sim_world (Some false) (Some true) (Some true) [b "--input=*.html"; b "--output"; b "out"])
  (EvGlob (b "*.html") (Some [b "in/a.html"; b "in/b.html"]) :: tr) (Exit 1).
Proof.
  eexists. eapply trace_cons; [apply does_glob|]. eapply trace_cons; [apply does_stderr|constructor].
Qed.
Lemma stdout_lost : exists w args tr text,
  trace (program w (Some true) (Some true) (Some true) args) tr (Exit 0) /\ In (EvStdout text false) tr.
Proof.
  exists sim_world, [], [EvStdin (Some (b "x")); EvStdout (b "x" ++ [10]) false], (b "x" ++ [10]). split; [|right; now left].
  eapply trace_cons; [apply does_stdin|]. eapply trace_cons; [apply does_stdout|constructor].
Qed.
(** in/a.html and in/a.md are converted into their own directory *)
Definition clash : list (path * bytes) := [(b "in/a.html", b "A"); (b "in/a.md", b "M")].
Definition clash_args : list bytes := [b "--input"; b "in/*"; b "--output"; b "in/"; b "--output-overwrite"].
Lemma overwrite_input : exists w args f0 tr f p d n d0,
  history alone f0 (program w (Some false) (Some true) (Some true) args) tr f (Exit 0) /\
  In (EvRead p (Some d)) tr /\ names f0 p = Some (File n) /\ content f0 n = Some d0 /\ d <> d0.
Proof.
  pose proof (sim_history (files [b "in/"] clash) clash_args (fun _ => map fst clash)) as H.
  destruct (sim (files [b "in/"] clash) clash_args (fun _ => map fst clash)) as [[tr f] p] eqn:E.
  assert (p = Exit 0) by (apply (f_equal snd) in E; vm_compute in E; congruence). subst p.
  exists sim_world, clash_args, (files [b "in/"] clash), tr, f, (b "in/a.md"), (b "A"), 1, (b "M").
  split; [exact H|]. apply (f_equal (fun x => fst (fst x))) in E. cbn [fst] in E.
  split; [rewrite <- E; vm_compute; tauto|]. split; [reflexivity|]. split; [reflexivity|discriminate].
Qed.
(** a/x.html, b/x.html and a third file named after the hash of the second *)
Definition lost : list (path * bytes) :=
  [(b "a/x.html", b "A"); (b "b/x.html", b "B"); (b "c/x.0123456789.html", b "C")].
Definition lost_world : world :=
  {| w_selector := unit; w_parse := fun _ => None; w_convert := fun _ d => Some d; w_hash := fun _ => b "0123456789abcdef";
     w_rel := fun _ p => Some p; w_split := fun p => p; w_usage := b "help"; w_version := b "version" |}.
Lemma overwrite_output : exists w args f0 tr f q d,
  history alone f0 (program w (Some false) (Some true) (Some true) args) tr f (Exit 0) /\
  In (q, d) (written tr) /\ file_at f q <> Some d.
Proof.
  set (args := [b "--input"; b "**"; b "--output"; b "out/"; b "--output-overwrite"]).
  pose proof (simulated [] (fun _ => map fst lost) (files [b "out/"] lost) (program lost_world (Some false) (Some true) (Some true) args) 100) as H.
  destruct (simulate [] (fun _ => map fst lost) (files [b "out/"] lost) 100 (program lost_world (Some false) (Some true) (Some true) args)) as [[tr f] p] eqn:E.
  assert (p = Exit 0) by (apply (f_equal snd) in E; vm_compute in E; congruence). subst p.
  exists lost_world, args, (files [b "out/"] lost), tr, f, (b "out/x.0123456789.md"), (b "B"). split; [exact H|].
  assert (E1 := f_equal (fun x => written (fst (fst x))) E). assert (E2 := f_equal (fun x => file_at (snd (fst x)) (b "out/x.0123456789.md")) E).
  cbn [fst snd] in E1, E2. split.
  - rewrite <- E1. vm_compute. tauto.
  - rewrite <- E2. vm_compute. discriminate.
Qed.
(** the conditions of C48 *)
Definition four : list path := [b "in/x.html"; b "in/b/x.html"; b "in/y.tar.gz"; b "in/c/x.htm"].
Lemma four_ok :
  (forall r, (10 <= List.length (sim_hash r))%nat) /\ NoDup four /\ (forall p, In p four -> exists stem, stem_of p stem) /\
  (forall p q, In p four -> In q four -> p <> q -> firstn 10 (sim_hash p) <> firstn 10 (sim_hash q)) /\
  (forall p q sp sq, In p four -> In q four -> stem_of p sp -> stem_of q sq -> sp <> sq ++ b "." ++ firstn 10 (sim_hash q)).
Proof.
  split; [intros r; unfold sim_hash; rewrite app_length; cbn; lia|].
  split.
  { unfold four. repeat constructor; cbn [In]; intros H; repeat (destruct H as [H|H]; [discriminate H|]); exact H. }
  split.
  { intros p Hp. unfold four in Hp. cbn [In] in Hp.
    assert (A : forall d st ext, forallb (fun c => negb (c =? 47)) (st ++ ext) = true -> forallb (fun c => negb (c =? 46)) ext = true ->
      stem_of ((d ++ [47]) ++ st ++ [46] ++ ext) st).
    { intros d st ext H1 H2. rewrite forallb_forall in H1, H2. constructor; [| | |right; eauto].
      - intros I. specialize (H1 47 (in_or_app _ _ _ (or_introl I))). discriminate.
      - intros I. specialize (H1 47 (in_or_app _ _ _ (or_intror I))). discriminate.
      - intros I. specialize (H2 46 I). discriminate. }
    destruct Hp as [<-|[<-|[<-|[<-|[]]]]]; [exists (b "x"); exact (A (b "in") (b "x") (b "html") eq_refl eq_refl)|
      exists (b "x"); exact (A (b "in/b") (b "x") (b "html") eq_refl eq_refl)|
      exists (b "y.tar"); exact (A (b "in") (b "y.tar") (b "gz") eq_refl eq_refl)|
      exists (b "x"); exact (A (b "in/c") (b "x") (b "htm") eq_refl eq_refl)]. }
  split.
  { intros p q Hp Hq. unfold four in Hp, Hq. cbn [In] in Hp, Hq.
    destruct Hp as [<-|[<-|[<-|[<-|[]]]]]; destruct Hq as [<-|[<-|[<-|[<-|[]]]]]; intros N; try congruence; vm_compute; discriminate. }
  { intros p q sp sq Hp Hq Sp Sq. apply stem_base in Sp, Sq. rewrite <- Sp, <- Sq. clear Sp Sq. unfold four in Hp, Hq. cbn [In] in Hp, Hq.
    destruct Hp as [<-|[<-|[<-|[<-|[]]]]]; destruct Hq as [<-|[<-|[<-|[<-|[]]]]]; vm_compute; discriminate. }
Qed.
