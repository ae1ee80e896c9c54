(** Complete runs of the command line program. *)
From Coq Require Import List NArith Arith Bool String Lia.
From Verif Require Import Bytes BytesFacts NetUrl Cli SpecCli CliFacts.
Import ListNotations.
Open Scope N_scope.
Open Scope list_scope.

Lemma trace_step p tr p2 :
  trace p tr p2 -> (tr = [] /\ p2 = p) \/ exists ev p1 tr', tr = ev :: tr' /\ does p ev p1 /\ trace p1 tr' p2.
Proof. intros H. destruct H; [now left|right; eauto 6]. Qed.
(** every run goes on to an end *)
Lemma extends p : exists tr q, trace p tr q /\ (q = Panic \/ exists code, q = Exit code).
Proof.
  induction p as [code| |k IH|g k IH|q k IH|q k IH|q k IH|q m k IH|h d k IH|h k IH|t k IH|e k IH];
    [exists [], (Exit code); split; [constructor|eauto]
    |exists [], Panic; split; [constructor|eauto]
    |destruct (IH None) as (tr & q1 & T & Q)|destruct (IH None) as (tr & q1 & T & Q)|destruct (IH IsDir) as (tr & q1 & T & Q)
    |destruct (IH true) as (tr & q1 & T & Q)|destruct (IH None) as (tr & q1 & T & Q)
    |destruct (IH OpenFailed) as (tr & q1 & T & Q)|destruct (IH true) as (tr & q1 & T & Q)
    |destruct (IH true) as (tr & q1 & T & Q)|destruct (IH true) as (tr & q1 & T & Q)|destruct IH as (tr & q1 & T & Q)];
    (eexists (_ :: tr), q1; split; [econstructor; [constructor|exact T]|exact Q]).
Qed.
Lemma trace_app p t1 p1 t2 p2 : trace p t1 p1 -> trace p1 t2 p2 -> trace p (t1 ++ t2) p2.
Proof. induction 1; [auto|intros; cbn; econstructor; eauto]. Qed.

(** all operations satisfy a condition *)
Fixpoint ops (P : event -> Prop) (p : prog) : Prop :=
  match p with
  | Exit _ => True
  | Panic => False
  | ReadStdin k => forall r, P (EvStdin r) /\ ops P (k r)
  | Glob g k => forall r, P (EvGlob g r) /\ ops P (k r)
  | Stat q k => forall r, P (EvStat q r) /\ ops P (k r)
  | MkdirAll q k => forall r, P (EvMkdir q r) /\ ops P (k r)
  | ReadFile q k => forall r, P (EvRead q r) /\ ops P (k r)
  | OpenFile q m k => forall r, P (EvOpen q m r) /\ ops P (k r)
  | WriteData h d k => forall r, P (EvWrite h d r) /\ ops P (k r)
  | CloseFile h k => forall r, P (EvClose h r) /\ ops P (k r)
  | WriteStdout t k => forall r, P (EvStdout t r) /\ ops P (k r)
  | WriteStderr e k => P (EvStderr e) /\ ops P k
  end.
Lemma ops_trace P p tr p' : ops P p -> trace p tr p' -> Forall P tr /\ p' <> Panic.
Proof.
  intros O T. induction T as [p|p ev p1 tr p2 D T IH]; [split; [constructor|]; intros ->; exact O|].
  destruct D; cbn in O; try (destruct (O r) as [O1 O2]; destruct (IH O2); split; [constructor; auto|auto]; fail).
  destruct O as [O1 O2]. destruct (IH O2); split; [constructor; auto|auto].
Qed.

Ltac tr_step H :=
  let ev := fresh "ev" in let p1 := fresh "p1" in let tr := fresh "tr" in let E := fresh "Et" in let D := fresh "D" in
  let T := fresh "T" in let Q := fresh "Q" in
  apply trace_step in H; destruct H as [(E & Q)|(ev & p1 & tr & E & D & T)]; [try discriminate Q|inversion D; subst; clear D].

Section run.
Variable selector : Type.
Variable parse_group : bytes -> option (list selector).
Variable convert : config selector -> bytes -> option bytes.
Variable hash : bytes -> bytes.
Variable rel : path -> path -> option path.
Variable split_pattern : path -> path.
Variable usage version_text : bytes.
Notation main := (cli_main selector parse_group convert hash rel split_pattern usage version_text).
Notation exec := (execute selector parse_group convert hash rel split_pattern usage version_text).
Notation crun := (run selector parse_group convert hash rel split_pattern version_text).
Notation parse := (parse_flags selector parse_group).
Notation fin := (final usage).

Definition quiet (ev : event) : Prop := ~ is_stdout ev /\ ~ is_stderr ev.
(** A run that ends with a message *)
Definition fails (tr : list event) (code : nat) : Prop :=
  code = 1%nat /\ exists tr0 e, tr = tr0 ++ [EvStderr e] /\ Forall quiet tr0.
Lemma fails_more ev tr code : quiet ev -> fails tr code -> fails (ev :: tr) code.
Proof. intros Q (C & tr0 & e & -> & F). split; [exact C|]. exists (ev :: tr0), e. split; [reflexivity|now constructor]. Qed.
Lemma stderr_trace e tr code : trace (WriteStderr e (Exit 1)) tr (Exit code) -> fails tr code.
Proof.
  intros T. tr_step T. tr_step T0.
  - injection Q as ->. split; [reflexivity|]. exists [], e. subst. split; [reflexivity|constructor].
Qed.
Lemma report_trace e tr code : e <> HelpRequested -> trace (fin (Some e)) tr (Exit code) -> fails tr code.
Proof. intros N T. rewrite final_reports in T by exact N. now apply stderr_trace with (1 := T). Qed.

(** The events of one successful input *)
Inductive read_ok : input -> bytes -> list event -> Prop :=
| read_held p d : read_ok (p, Some d) d []
| read_file p d : read_ok (p, None) d [EvRead p (Some d)].
Inductive write_ok (c : config selector) : output_type -> bytes -> bytes -> list event -> Prop :=
| write_stdout n md r : write_ok c ToStdout n md [EvStdout (md ++ [cNL]) r]
| write_dir n md m h : m = (if c_overwrite _ c then Trunc else Excl) ->
    write_ok c ToDirectory n md [EvOpen (join_path (c_output _ c) n) m (Opened h); EvWrite h md true; EvClose h true]
| write_one n md m h : m = (if c_overwrite _ c then Trunc else Excl) ->
    write_ok c ToFile n md [EvOpen (c_output _ c) m (Opened h); EvWrite h md true; EvClose h true].
Inductive all_ok (c : config selector) (t : output_type) : list (input * bytes) -> list event -> Prop :=
| ok_nil : all_ok c t [] []
| ok_cons i n rest d md t1 t2 t3 :
    read_ok i d t1 -> convert c d = Some md -> write_ok c t n md t2 -> all_ok c t rest t3 ->
    all_ok c t ((i, n) :: rest) (t1 ++ t2 ++ t3).

Lemma write_file_trace q d o k tr code :
  trace (write_file q d o k) tr (Exit code) ->
  (exists h tr', tr = [EvOpen q (if o then Trunc else Excl) (Opened h); EvWrite h d true; EvClose h true] ++ tr' /\
     trace (k None) tr' (Exit code)) \/
  (exists e t1 tr', tr = t1 ++ tr' /\ Forall quiet t1 /\ e <> HelpRequested /\ trace (k (Some e)) tr' (Exit code)).
Proof.
  intros T. unfold write_file in T. tr_step T. destruct r as [h| |].
  - tr_step T0. tr_step T. destruct (r && r0) eqn:Er.
    + left. apply andb_true_iff in Er. destruct Er as [-> ->]. exists h, tr0. split; [reflexivity|exact T0].
    + right. eexists (WriteFailed q), [_; _; _], tr0. split; [reflexivity|]. split; [|split; [discriminate|exact T0]].
      repeat constructor; cbn; tauto.
  - right. eexists _, [_], tr0. split; [reflexivity|]. split; [|split; [|exact T0]]; [|discriminate].
    repeat constructor; cbn; tauto.
  - right. eexists _, [_], tr0. split; [reflexivity|]. split; [|split; [|exact T0]]; [|discriminate].
    repeat constructor; cbn; tauto.
Qed.
Lemma fails_app t1 tr code : Forall quiet t1 -> fails tr code -> fails (t1 ++ tr) code.
Proof. induction 1; [auto|]. intros F. cbn. apply fails_more; auto. Qed.

Lemma convert_all_trace c t ins tr code :
  (t = ToStdout -> (List.length ins <= 1)%nat) ->
  trace (convert_all selector convert c t ins fin) tr (Exit code) ->
  fails tr code \/ (code = 0%nat /\ all_ok c t ins tr).
Proof.
  revert tr. induction ins as [|[i n] rest IH]; intros tr L T.
  { cbn in T. tr_step T. injection Q as ->. subst. right. split; [reflexivity|constructor]. }
  cbn [convert_all] in T.
  assert (R : exists r t1 tr', tr = t1 ++ tr' /\
     match r with Some d => read_ok i d t1 | None => Forall quiet t1 end /\
     trace (match r with
        | Some data => match convert c data with
             | Some markdown => write_output selector c t n markdown (fun r => match r with Some e => fin (Some e) | None => convert_all selector convert c t rest fin end)
             | None => fin (Some ConvertFailed) end
        | None => fin (Some (ReadFailed (fst i))) end) tr' (Exit code)).
  { unfold read_input in T. destruct i as [p [d|]]; cbn [snd fst] in *.
    - exists (Some d), [], tr. split; [reflexivity|]. split; [constructor|exact T].
    - tr_step T. exists r, [EvRead p r], tr0. split; [reflexivity|]. split; [|exact T0].
      destruct r; [constructor|repeat constructor; cbn; tauto]. }
  destruct R as (r & t1 & tr' & -> & Hr & T'). clear T.
  destruct r as [d|].
  2:{ left. apply fails_app; [exact Hr|]. eapply report_trace; [|exact T']. discriminate. }
  assert (Q1 : Forall quiet t1) by (inversion Hr; repeat constructor; cbn; tauto).
  destruct (convert c d) as [md|] eqn:Ec.
  2:{ left. apply fails_app; [exact Q1|]. eapply report_trace; [|exact T']. discriminate. }
  unfold write_output in T'. destruct t.
  - tr_step T'. assert (rest = []) as -> by (specialize (L eq_refl); cbn in L; destruct rest; [reflexivity|cbn in L; lia]).
    cbn in T. tr_step T. injection Q as ->. subst. right. split; [reflexivity|].
    change [EvStdout (md ++ [cNL]) r] with ([EvStdout (md ++ [cNL]) r] ++ []).
    econstructor; [exact Hr|exact Ec|constructor|constructor].
  - apply write_file_trace in T'. destruct T' as [(h & tr2 & -> & T')|(e & t2 & tr2 & -> & Q2 & Ne & T')].
    + apply IH in T'; [|discriminate]. destruct T' as [F|(-> & A)].
      * left. apply fails_app; [exact Q1|]. cbn [app]. repeat apply fails_more; try exact F; split; cbn; tauto.
      * right. split; [reflexivity|]. econstructor; [exact Hr|exact Ec|now constructor|exact A].
    + left. apply fails_app; [exact Q1|]. apply fails_app; [exact Q2|]. eapply report_trace; [|exact T']. exact Ne.
  - apply write_file_trace in T'. destruct T' as [(h & tr2 & -> & T')|(e & t2 & tr2 & -> & Q2 & Ne & T')].
    + apply IH in T'; [|discriminate]. destruct T' as [F|(-> & A)].
      * left. apply fails_app; [exact Q1|]. cbn [app]. repeat apply fails_more; try exact F; split; cbn; tauto.
      * right. split; [reflexivity|]. econstructor; [exact Hr|exact Ec|now constructor|exact A].
    + left. apply fails_app; [exact Q1|]. apply fails_app; [exact Q2|]. eapply report_trace; [|exact T']. exact Ne.
Qed.

Lemma list_inputs_trace pipe c k tr code :
  trace (list_inputs selector pipe c k) tr (Exit code) ->
  (exists m ms tr', c_input _ c <> [] /\ tr = EvGlob (c_input _ c) (Some (m :: ms)) :: tr' /\
     trace (k (inl (map (fun p => (p, None)) (m :: ms)))) tr' (Exit code)) \/
  (exists d tr', c_input _ c = [] /\ pipe = true /\ tr = EvStdin (Some d) :: tr' /\
     trace (k (inl [(b "output", Some d)])) tr' (Exit code)) \/
  (exists e t1 tr', tr = t1 ++ tr' /\ Forall quiet t1 /\ e <> HelpRequested /\ trace (k (inr e)) tr' (Exit code)).
Proof.
  intros T. unfold list_inputs in T. destruct (c_input _ c) as [|x xs] eqn:Ei; cbn [is_empty negb] in T.
  - destruct pipe.
    + tr_step T. destruct r as [d|].
      * right; left. exists d, tr0. auto.
      * right; right. eexists _, [_], tr0. split; [reflexivity|]. split; [|split; [|exact T0]]; [|discriminate].
        repeat constructor; cbn; tauto.
    + right; right. eexists _, [], tr. split; [reflexivity|]. split; [|split; [|exact T]]; [constructor|discriminate].
  - tr_step T. destruct r as [[|m ms]|].
    + tr_step T0. assert (exists e, e <> HelpRequested /\ trace (k (inr e)) tr (Exit code)) as (e & Ne & T').
      { destruct r; eexists; (split; [|exact T]); discriminate. }
      right; right. eexists e, [_; _], tr. split; [reflexivity|]. split; [|split; [exact Ne|exact T']].
      repeat constructor; cbn; tauto.
    + left. exists m, ms, tr0. split; [discriminate|]. split; [reflexivity|exact T0].
    + right; right. eexists _, [_], tr0. split; [reflexivity|]. split; [|split; [|exact T0]]; [|discriminate].
      repeat constructor; cbn; tauto.
Qed.
(** Which kind of output an admissible command has *)
Inductive out_kind (n : nat) (out : path) : output_type -> list event -> Prop :=
| kind_stdout : out = [] -> (n <= 1)%nat -> out_kind n out ToStdout []
| kind_dir : has_suffix [47] out = true -> out_kind n out ToDirectory []
| kind_file r : out <> [] -> has_suffix [47] out = false -> (n <= 1)%nat -> r <> IsDir -> out_kind n out ToFile [EvStat out r].
Lemma determine_trace n out k tr code :
  trace (determine_output n out k) tr (Exit code) ->
  (exists t t1 tr', tr = t1 ++ tr' /\ out_kind n out t t1 /\ trace (k (inl t)) tr' (Exit code)) \/
  (exists e t1 tr', tr = t1 ++ tr' /\ Forall quiet t1 /\ Forall (fun ev => ~ changes ev) t1 /\ e <> HelpRequested /\
     trace (k (inr e)) tr' (Exit code)).
Proof.
  intros T. unfold determine_output in T. destruct out as [|x xs].
  - cbn [is_empty] in T. destruct (Nat.ltb 1 n) eqn:En.
    + right. eexists _, [], tr. split; [reflexivity|]. split; [constructor|]. split; [constructor|]. split; [|exact T]. discriminate.
    + apply Nat.ltb_ge in En. left. eexists ToStdout, [], tr. split; [reflexivity|]. split; [now constructor|exact T].
  - cbn [is_empty] in T. destruct (has_suffix [47] (x :: xs)) eqn:Es.
    + left. eexists ToDirectory, [], tr. split; [reflexivity|]. split; [now constructor|exact T].
    + destruct (Nat.ltb 1 n) eqn:En.
      * right. eexists _, [], tr. split; [reflexivity|]. split; [constructor|]. split; [constructor|]. split; [|exact T]. discriminate.
      * apply Nat.ltb_ge in En. tr_step T. destruct r.
        -- left. eexists ToFile, [_], tr0. split; [reflexivity|]. split; [|exact T0]. now constructor.
        -- left. eexists ToFile, [_], tr0. split; [reflexivity|]. split; [|exact T0]. now constructor.
        -- right. eexists _, [_], tr0. split; [reflexivity|].
           split; [repeat constructor; cbn; tauto|]. split; [repeat constructor; cbn; tauto|]. split; [|exact T0]. discriminate.
Qed.
Inductive ensured (out : path) : output_type -> list event -> Prop :=
| ens_stdout : ensured out ToStdout []
| ens_dir : ensured out ToDirectory [EvMkdir out true]
| ens_file : ensured out ToFile [EvMkdir (dir_name out) true].
Lemma ensure_trace t out k tr code :
  trace (ensure_directories t out k) tr (Exit code) ->
  (exists t1 tr', tr = t1 ++ tr' /\ ensured out t t1 /\ trace (k None) tr' (Exit code)) \/
  (exists e t1 tr', tr = t1 ++ tr' /\ Forall quiet t1 /\ e <> HelpRequested /\ trace (k (Some e)) tr' (Exit code)).
Proof.
  intros T. unfold ensure_directories in T. destruct t.
  - left. exists [], tr. split; [reflexivity|]. split; [constructor|exact T].
  - tr_step T. destruct r.
    + left. eexists [_], tr0. split; [reflexivity|]. split; [constructor|exact T0].
    + right. eexists _, [_], tr0. split; [reflexivity|]. split; [repeat constructor; cbn; tauto|]. split; [|exact T0]. discriminate.
  - tr_step T. destruct r.
    + left. eexists [_], tr0. split; [reflexivity|]. split; [constructor|exact T0].
    + right. eexists _, [_], tr0. split; [reflexivity|]. split; [repeat constructor; cbn; tauto|]. split; [|exact T0]. discriminate.
Qed.

(** The possible complete runs *)
Inductive listed (pipe : bool) (c : config selector) : list input -> event -> Prop :=
| listed_glob m ms : c_input _ c <> [] ->
    listed pipe c (map (fun p => (p, None)) (m :: ms)) (EvGlob (c_input _ c) (Some (m :: ms)))
| listed_stdin d : c_input _ c = [] -> pipe = true -> listed pipe c [(b "output", Some d)] (EvStdin (Some d)).
Inductive converted (pipe : bool) (c : config selector) (tr : list event) : Prop :=
| converted_intro inputs ev t t1 t2 t3 outs :
    listed pipe c inputs ev -> out_kind (List.length inputs) (c_output _ c) t t1 -> ensured (c_output _ c) t t2 ->
    output_names hash rel (split_pattern (clean_path (c_input _ c))) [] (map fst inputs) = Some outs ->
    all_ok c t (combine inputs outs) t3 -> tr = ev :: t1 ++ t2 ++ t3 -> converted pipe c tr.
Lemma exec_trace pipe args tr code :
  trace (exec pipe args) tr (Exit code) ->
  fails tr code \/
  (code = 0%nat /\
   ((exists r, tr = [EvStdout usage r] /\ parse args = inr HelpRequested) \/
    (exists r c, tr = [EvStdout version_text r] /\ parse args = inl (c, []) /\ c_version _ c = true) \/
    (exists c, parse args = inl (c, []) /\ c_version _ c = false /\ converted pipe c tr))).
Proof.
  intros T. change (exec pipe args) with (crun pipe args fin) in T. unfold run in T.
  destruct (parse args) as [[c rest]|e] eqn:Ep.
  2:{ destruct e; try (left; now apply stderr_trace with (1 := T)).
      right. cbn in T. tr_step T. tr_step T0. injection Q as ->. subst. split; [reflexivity|]. left. eauto. }
  destruct rest as [|a rest]; cbn [is_empty negb] in T.
  2:{ left. now apply stderr_trace with (1 := T). }
  destruct (c_version _ c) eqn:Ev.
  { right. tr_step T. cbn in T0. tr_step T0. injection Q as ->. subst. split; [reflexivity|]. right; left. eauto. }
  apply list_inputs_trace in T.
  assert (L : fails tr code \/ exists inputs ev tr', listed pipe c inputs ev /\ tr = ev :: tr' /\
     trace (determine_output (List.length inputs) (c_output _ c) (fun r =>
                match r with
                | inr e => fin (Some e)
                | inl t =>
                    ensure_directories t (c_output _ c) (fun r =>
                      match r with
                      | Some e => fin (Some e)
                      | None =>
                          match output_names hash rel (split_pattern (clean_path (c_input _ c))) [] (map fst inputs) with
                          | None => fin (Some (RelFailed (c_input _ c)))
                          | Some names => convert_all selector convert c t (combine inputs names) fin
                          end
                      end)
                end)) tr' (Exit code)).
  { destruct T as [(m & ms & tr' & Hi & -> & T)|[(d & tr' & Hi & Hp & -> & T)|(e & t1 & tr' & -> & Q & Ne & T)]].
    - right. eexists _, _, tr'. split; [now apply listed_glob|]. split; [reflexivity|exact T].
    - right. eexists _, _, tr'. split; [now apply listed_stdin|]. split; [reflexivity|exact T].
    - left. apply fails_app; [exact Q|]. now apply report_trace with (2 := T). }
  destruct L as [F|(inputs & ev & tr' & Hl & -> & T')]; [now left|]. clear T.
  assert (Qe : quiet ev) by (destruct Hl; split; cbn; tauto).
  apply determine_trace in T'.
  destruct T' as [(t & t1 & tr1 & -> & Hk & T')|(e & t1 & tr1 & -> & Q & _ & Ne & T')].
  2:{ left. apply fails_more; [exact Qe|]. apply fails_app; [exact Q|]. now apply report_trace with (2 := T'). }
  assert (Q1 : Forall quiet t1) by (destruct Hk; repeat constructor; cbn; tauto).
  apply ensure_trace in T'.
  destruct T' as [(t2 & tr2 & -> & He & T')|(e & t2 & tr2 & -> & Q & Ne & T')].
  2:{ left. apply fails_more; [exact Qe|]. apply fails_app; [exact Q1|]. apply fails_app; [exact Q|]. now apply report_trace with (2 := T'). }
  assert (Q2 : Forall quiet t2) by (destruct He; repeat constructor; cbn; tauto).
  destruct (output_names _ _ _ _ _) as [outs|] eqn:Eo.
  2:{ left. apply fails_more; [exact Qe|]. apply fails_app; [exact Q1|]. apply fails_app; [exact Q2|].
      eapply report_trace; [|exact T']. discriminate. }
  apply convert_all_trace in T'.
  2:{ intros ->. inversion Hk. rewrite combine_length. lia. }
  destruct T' as [F|(-> & A)].
  - left. apply fails_more; [exact Qe|]. apply fails_app; [exact Q1|]. now apply fails_app.
  - right. split; [reflexivity|]. right; right. exists c. split; [reflexivity|]. split; [exact Ev|].
    econstructor; eauto.
Qed.

(** ** C49 *)
Lemma all_ok_fine c t ins tr : all_ok c t ins tr -> Forall (fun ev => ~ failed ev /\ ~ is_stderr ev) tr.
Proof.
  induction 1 as [|i n rest d md t1 t2 t3 R E W A IH]; [constructor|].
  apply Forall_app. split; [|apply Forall_app; split; [|exact IH]].
  - destruct R; repeat constructor; cbn; tauto.
  - destruct W; repeat constructor; cbn; tauto.
Qed.
Lemma converted_fine pipe c tr : converted pipe c tr -> Forall (fun ev => ~ failed ev /\ ~ is_stderr ev) tr.
Proof.
  intros [inputs ev t t1 t2 t3 outs Hl Hk He Ho A ->]. constructor; [|apply Forall_app; split; [|apply Forall_app; split]].
  - destruct Hl; cbn; tauto.
  - destruct Hk; repeat constructor; cbn; tauto.
  - destruct He; repeat constructor; cbn; tauto.
  - now apply all_ok_fine with (1 := A).
Qed.
Lemma main_trace i o e args tr code :
  trace (main i o e args) tr (Exit code) -> exists pipe, i = Some pipe /\ trace (exec pipe args) tr (Exit code).
Proof.
  intros T. destruct i as [pipe|], o, e; cbn in T; try (tr_step T; fail). exists pipe. auto.
Qed.
Lemma exit_status i o e args tr code :
  trace (main i o e args) tr (Exit code) ->
  (code = 0%nat /\ Forall (fun ev => ~ failed ev /\ ~ is_stderr ev) tr) \/
  (code = 1%nat /\ exists tr0 err, tr = tr0 ++ [EvStderr err] /\ Forall (fun ev => ~ is_stdout ev /\ ~ is_stderr ev) tr0).
Proof.
  intros T. apply main_trace in T. destruct T as (pipe & -> & T). apply exec_trace in T.
  destruct T as [(-> & F)|(-> & [(r & -> & _)|[(r & c & -> & _)|(c & _ & _ & C)]])]; [right; split; [reflexivity|exact F]|left..];
    (split; [reflexivity|]); try (repeat constructor; cbn; tauto). now apply converted_fine with (1 := C).
Qed.

(** ** Conditions on all operations *)
Lemma ops_final (P : event -> Prop) r : (forall t x, P (EvStdout t x)) -> (forall e, P (EvStderr e)) -> ops P (fin r).
Proof. intros A B. destruct r as [e|]; [|exact I]. destruct e; cbn; auto. Qed.
Lemma ops_write_file (P : event -> Prop) p d o k :
  (forall m x, P (EvOpen p m x)) -> (forall h x, P (EvWrite h d x)) -> (forall h x, P (EvClose h x)) ->
  (forall r, ops P (k r)) -> ops P (write_file p d o k).
Proof.
  intros A B C K. intros r. split; [apply A|]. destruct r as [h| |]; [|apply K..].
  intros r. split; [apply B|]. intros r'. split; [apply C|apply K].
Qed.
Lemma ops_all (P : event -> Prop) c t ins :
  (forall p m x, P (EvOpen p m x)) -> (forall h d x, P (EvWrite h d x)) -> (forall h x, P (EvClose h x)) ->
  (forall t x, P (EvStdout t x)) -> (forall e, P (EvStderr e)) ->
  (forall p n, In ((p, None), n) ins -> forall r, P (EvRead p r)) ->
  ops P (convert_all selector convert c t ins fin).
Proof.
  intros A B C D E. induction ins as [|[[p held] n] rest IH]; intros R; [exact I|]. cbn [convert_all].
  assert (IH' := IH (fun p' n' H => R p' n' (or_intror H))).
  assert (K : forall r, ops P (match r with
        | Some data => match convert c data with
             | Some markdown => write_output selector c t n markdown (fun r => match r with Some e => fin (Some e) | None => convert_all selector convert c t rest fin end)
             | None => fin (Some ConvertFailed) end
        | None => fin (Some (ReadFailed (fst (p, held)))) end)).
  { intros [data|]; [|now apply ops_final]. destruct (convert c data) as [md|]; [|now apply ops_final].
    assert (W : forall r : option error, ops P (match r with Some e => fin (Some e) | None => convert_all selector convert c t rest fin end)).
    { intros [e|]; [now apply ops_final|exact IH']. }
    unfold write_output. destruct t; [intros r; split; [apply D|exact IH']|now apply ops_write_file..]. }
  unfold read_input. cbn [snd fst] in *. destruct held as [d|]; [exact (K (Some d))|].
  intros r. split; [apply (R p n); now left|exact (K r)].
Qed.
Lemma ops_exec (P : event -> Prop) pipe args :
  (forall p m x, P (EvOpen p m x)) -> (forall h d x, P (EvWrite h d x)) -> (forall h x, P (EvClose h x)) ->
  (forall t x, P (EvStdout t x)) -> (forall e, P (EvStderr e)) -> (forall p x, P (EvStat p x)) -> (forall p x, P (EvMkdir p x)) ->
  (forall c rest, parse args = inl (c, rest) -> c_input _ c <> [] -> (forall p r, P (EvRead p r)) /\ (forall r, P (EvGlob (c_input _ c) r))) ->
  (forall c rest, parse args = inl (c, rest) -> c_input _ c = [] -> pipe = true -> forall r, P (EvStdin r)) ->
  ops P (exec pipe args).
Proof.
  intros A B C D E S M G I0. change (exec pipe args) with (crun pipe args fin). unfold run.
  destruct (parse args) as [[c rest]|e] eqn:Ep; [|now apply ops_final].
  specialize (G c rest eq_refl). specialize (I0 c rest eq_refl).
  destruct (negb (is_empty rest)); [now apply ops_final|].
  destruct (c_version _ c); [intros r; split; [apply D|exact I]|].
  assert (F : forall e, ops P (fin (Some e))) by (intros; now apply ops_final).
  assert (K : forall inputs, (forall p, In (p, None) inputs -> c_input _ c <> []) -> ops P
     (determine_output (List.length inputs) (c_output _ c) (fun r =>
                match r with
                | inr e => fin (Some e)
                | inl t =>
                    ensure_directories t (c_output _ c) (fun r =>
                      match r with
                      | Some e => fin (Some e)
                      | None =>
                          match output_names hash rel (split_pattern (clean_path (c_input _ c))) [] (map fst inputs) with
                          | None => fin (Some (RelFailed (c_input _ c)))
                          | Some names => convert_all selector convert c t (combine inputs names) fin
                          end
                      end)
                end))).
  { intros inputs Hin.
    assert (V : forall t, ops P (match output_names hash rel (split_pattern (clean_path (c_input _ c))) [] (map fst inputs) with
                          | None => fin (Some (RelFailed (c_input _ c)))
                          | Some names => convert_all selector convert c t (combine inputs names) fin
                          end)).
    { intros t. destruct (output_names _ _ _ _ _) as [outs|]; [|apply F]. apply ops_all; auto.
      intros p n Hp r. apply in_combine_l in Hp. apply G. now apply (Hin p). }
    assert (U : forall t, ops P (ensure_directories t (c_output _ c) (fun r =>
                      match r with
                      | Some e => fin (Some e)
                      | None =>
                          match output_names hash rel (split_pattern (clean_path (c_input _ c))) [] (map fst inputs) with
                          | None => fin (Some (RelFailed (c_input _ c)))
                          | Some names => convert_all selector convert c t (combine inputs names) fin
                          end
                      end))).
    { intros t. unfold ensure_directories. destruct t; [apply V|intros r; split; [apply M|destruct r; [apply V|apply F]]..]. }
    unfold determine_output. destruct (is_empty (c_output selector c)); [destruct (Nat.ltb _ _); [apply F|apply U]|].
    destruct (has_suffix _ _); [apply U|]. destruct (Nat.ltb _ _); [apply F|].
    intros r. split; [apply S|destruct r; [apply U..|apply F]]. }
  unfold list_inputs. destruct (c_input _ c) as [|x xs] eqn:Ei; cbn [is_empty negb].
  - destruct pipe; [|apply F]. intros r. split; [apply I0; auto|]. destruct r; [|apply F]. apply K. intros p [H|[]]. discriminate.
  - intros r. split; [apply G; discriminate|]. destruct r as [[|m ms]|]; [| |apply F].
    + intros r. split; [apply S|destruct r; apply F].
    + apply K. discriminate.
Qed.
Lemma no_panic pipe o e args tr p : trace (main (Some pipe) (Some o) (Some e) args) tr p -> p <> Panic.
Proof.
  intros T. cbn in T. eapply (ops_trace (fun _ => True)) in T; [apply T|]. apply ops_exec; auto.
Qed.

(** ** C50 *)
Lemma one_source i o e args c rest tr p :
  parse args = inl (c, rest) -> trace (main i o e args) tr p ->
  (c_input _ c <> [] -> forall r, ~ In (EvStdin r) tr) /\
  (c_input _ c = [] -> (forall q r, ~ In (EvRead q r) tr) /\ (forall q r, ~ In (EvGlob q r) tr)).
Proof.
  intros Ep T. destruct i as [pipe|]; [|cbn in T; tr_step T; subst; cbn; tauto].
  destruct o, e; cbn in T; try (tr_step T; subst; cbn; tauto).
  eapply (ops_trace (fun ev => match ev with EvStdin _ => c_input _ c = [] | EvRead _ _ | EvGlob _ _ => c_input _ c <> [] | _ => True end)) in T.
  - destruct T as [T _]. rewrite Forall_forall in T. split.
    + intros N r Hr. apply T in Hr. contradiction.
    + intros N. split; intros q r Hr; apply T in Hr; contradiction.
  - apply ops_exec; auto; intros c' rest' Ep'; rewrite Ep in Ep'; injection Ep' as <- <-; auto.
Qed.
Lemma table_options args c rest :
  parse args = inl (c, rest) ->
  c_skip_empty_rows _ c = true \/ c_header_promotion _ c = true \/ c_span_cells _ c <> [] \/ c_presentation _ c = true \/
  c_newlines _ c <> [] \/ c_padding _ c <> [] -> c_table _ c = true.
Proof.
  unfold parse_flags. intros H O.
  destruct (parse_args selector parse_group (default_config selector) args) as [[c0 r0]|] eqn:E; [|discriminate].
  destruct (c_table selector c0) eqn:Et.
  - repeat match type of H with (if ?t then _ else _) = _ => destruct t; [discriminate|] end. injection H as <- <-. exact Et.
  - cbn [negb] in H. rewrite !andb_true_r in H.
    repeat match type of H with (if ?t then _ else _) = _ => let X := fresh "X" in destruct t eqn:X; [discriminate|] end.
    injection H as <- <-.
    destruct (c_span_cells selector c0), (c_newlines selector c0), (c_padding selector c0); try discriminate.
    destruct O as [O|[O|[O|[O|[O|O]]]]]; congruence.
Qed.
Lemma violation_stops pipe args e : parse args = inr e -> e <> HelpRequested -> exec pipe args = WriteStderr e (Exit 1).
Proof.
  intros E N. change (exec pipe args) with (crun pipe args fin). unfold run. rewrite E. now apply final_reports.
Qed.
Lemma several_inputs i o e args c g m1 m2 ms tr code :
  parse args = inl (c, []) -> has_suffix [47] (c_output _ c) = false ->
  trace (main i o e args) (EvGlob g (Some (m1 :: m2 :: ms)) :: tr) (Exit code) ->
  code = 1%nat /\ exists err, tr = [EvStderr err].
Proof.
  intros Ep Es T. apply main_trace in T. destruct T as (pipe & -> & T).
  change (exec pipe args) with (crun pipe args fin) in T. unfold run in T. rewrite Ep in T. cbn [is_empty negb] in T.
  destruct (c_version _ c); [tr_step T; discriminate|].
  unfold list_inputs in T. destruct (negb (is_empty (c_input _ c))).
  2:{ destruct pipe; [tr_step T; discriminate|]. cbn in T. tr_step T. discriminate. }
  tr_step T. injection Et as _ <- <-.
  unfold determine_output in T0. rewrite Es in T0.
  assert (X : exists err, trace (WriteStderr err (Exit 1)) tr (Exit code)).
  { destruct (is_empty (c_output selector c)); eexists; exact T0. }
  destruct X as (err & X). tr_step X. tr_step T. injection Q as ->. subst. eauto.
Qed.

(** ** Outputs and inputs correspond *)
Lemma written_app_closed t1 t2 :
  (forall a p m h, t1 <> a ++ [EvOpen p m (Opened h)]) -> written (t1 ++ t2) = written t1 ++ written t2.
Proof.
  induction t1 as [|ev t1 IH]; intros N; [reflexivity|].
  assert (N' : forall a p m h, t1 <> a ++ [EvOpen p m (Opened h)]).
  { intros a p m h E. apply (N (ev :: a) p m h). cbn. now rewrite E. }
  specialize (IH N').
  destruct ev; cbn [app written]; try exact IH.
  destruct r as [i| |]; try exact IH.
  destruct t1 as [|ev2 t1]; [exfalso; now apply (N [] p m i)|]. cbn [app] in *.
  destruct ev2; try exact IH. destruct r; [|exact IH]. destruct (i =? h); [|exact IH]. cbn [app]. f_equal. exact IH.
Qed.
Lemma data_read_app t1 t2 : data_read (t1 ++ t2) = data_read t1 ++ data_read t2.
Proof.
  induction t1 as [|ev t IH]; [reflexivity|]. destruct ev; cbn [app data_read]; rewrite ?IH; try reflexivity; destruct r; reflexivity.
Qed.
Lemma files_read_app t1 t2 : files_read (t1 ++ t2) = files_read t1 ++ files_read t2.
Proof.
  induction t1 as [|ev t IH]; [reflexivity|]. destruct ev; cbn [app files_read]; rewrite ?IH; try reflexivity; destruct r; reflexivity.
Qed.
Lemma printed_app t1 t2 : printed (t1 ++ t2) = printed t1 ++ printed t2.
Proof. induction t1 as [|ev t IH]; [reflexivity|]. destruct ev; cbn [app printed]; rewrite ?IH; reflexivity. Qed.

(** the data of the inputs, held or read *)
Definition opened_names (c : config selector) (t : output_type) (outs : list bytes) : list path :=
  match t with
  | ToStdout => []
  | ToDirectory => map (join_path (c_output _ c)) outs
  | ToFile => map (fun _ => c_output _ c) outs
  end.
Lemma all_ok_data c t ins tr :
  all_ok c t ins tr ->
  exists ds mds, List.length ds = List.length ins /\
    Forall2 (fun d md => convert c d = Some md) ds mds /\
    Forall2 (fun i d => match snd (fst i) with Some d' => d = d' | None => True end) ins ds /\
    data_read tr = flat_map (fun x => match snd (fst (fst x)) with None => [snd x] | Some _ => [] end) (combine ins ds) /\
    written tr = match t with ToStdout => [] | _ => combine (opened_names c t (map snd ins)) mds end /\
    printed tr = match t with ToStdout => map (fun md => md ++ [cNL]) mds | _ => [] end /\
    files_read tr
      = flat_map (fun i => match snd (fst i) with None => [fst (fst i)] | Some _ => [] end) ins.
Proof.
  induction 1 as [|i n rest d md t1 t2 t3 R E W A IH].
  { exists [], []. repeat split; try constructor; destruct t; reflexivity. }
  destruct IH as (ds & mds & L & F1 & F2 & HD & HW & HP & HR).
  exists (d :: ds), (md :: mds). split; [cbn; now rewrite L|]. split; [now constructor|].
  split; [constructor; [destruct R; cbn; auto|exact F2]|].
  assert (W1 : written t1 = [] /\ printed t1 = [] /\ forall a p m h, t1 <> a ++ [EvOpen p m (Opened h)]).
  { destruct R; (split; [reflexivity|split; [reflexivity|]]); intros a p' m h X; destruct a as [|? [|? ?]]; discriminate. }
  destruct W1 as (W1 & P1 & N1).
  assert (N2 : forall a p m h, t2 <> a ++ [EvOpen p m (Opened h)]).
  { destruct W; intros a p' m' h' X; destruct a as [|? [|? [|? [|? ?]]]]; discriminate. }
  assert (D2 : data_read t2 = []) by (destruct W; reflexivity).
  rewrite !data_read_app, D2, HD. rewrite !printed_app, P1, HP.
  rewrite written_app_closed by exact N1. rewrite written_app_closed by exact N2. rewrite W1, HW.
  rewrite !files_read_app, HR.
  assert (F3 : files_read t2 = []) by (destruct W; reflexivity).
  rewrite F3. cbn [map app].
  split; [|split; [|split]].
  - destruct R; reflexivity.
  - destruct W; cbn [written]; rewrite ?N.eqb_refl; reflexivity.
  - destruct W; reflexivity.
  - destruct R; reflexivity.
Qed.
End run.
