(** An operating system for examples: runs the command line program on a file system without failures. *)
From Coq Require Import List NArith Arith Bool String.
From Verif Require Import Bytes BytesFacts Cli SpecCli CliFacts4.
Import ListNotations.
Open Scope N_scope.
Open Scope list_scope.

Section sim.
Variable stdin : bytes.
Variable glob : bytes -> list path.
(** one run; [next] is the number of the next new file *)
Fixpoint simulate (f : fs) (next : N) (p : prog) : list event * fs * prog :=
  let more ev r := let '(tr, f', q) := r in (ev :: tr, f', q) in
  match p with
  | Exit _ | Panic => ([], f, p)
  | ReadStdin k => more (EvStdin (Some stdin)) (simulate f next (k (Some stdin)))
  | Glob g k => more (EvGlob g (Some (glob g))) (simulate f next (k (Some (glob g))))
  | Stat q k =>
      match names f q with
      | Some Directory => more (EvStat q IsDir) (simulate f next (k IsDir))
      | Some (File _) => more (EvStat q IsFile) (simulate f next (k IsFile))
      | None => more (EvStat q StatFailed) (simulate f next (k StatFailed))
      end
  | MkdirAll q k => more (EvMkdir q true) (simulate f next (k true))
  | ReadFile q k =>
      match names f q with
      | Some (File i) =>
          match content f i with
          | Some d => more (EvRead q (Some d)) (simulate f next (k (Some d)))
          | None => more (EvRead q None) (simulate f next (k None))
          end
      | _ => more (EvRead q None) (simulate f next (k None))
      end
  | OpenFile q m k =>
      match names f q, m with
      | Some (File i), Trunc =>
          match content f i with
          | Some _ => more (EvOpen q m (Opened i)) (simulate (store f i []) next (k (Opened i)))
          | None => more (EvOpen q m OpenFailed) (simulate f next (k OpenFailed))
          end
      | Some _, Excl => more (EvOpen q m AlreadyExists) (simulate f next (k AlreadyExists))
      | None, _ =>
          match content f next with
          | None => more (EvOpen q m (Opened next)) (simulate (bind (store f next []) q (File next)) (N.succ next) (k (Opened next)))
          | Some _ => more (EvOpen q m OpenFailed) (simulate f next (k OpenFailed))
          end
      | Some Directory, Trunc => more (EvOpen q m OpenFailed) (simulate f next (k OpenFailed))
      end
  | WriteData h d k =>
      match content f h with
      | Some _ => more (EvWrite h d true) (simulate (store f h d) next (k true))
      | None => ([], f, p)
      end
  | CloseFile h k => more (EvClose h true) (simulate f next (k true))
  | WriteStdout t k => more (EvStdout t true) (simulate f next (k true))
  | WriteStderr e k => more (EvStderr e) (simulate f next k)
  end.
Lemma simulate_runs p : forall f next,
  let '(tr, f', q) := simulate f next p in trace p tr q /\ effects tr f f'.
Proof.
  assert (M : forall p ev f f1 next k, does p ev k -> effect ev f f1 ->
     (let '(tr, f', q) := simulate f1 next k in trace k tr q /\ effects tr f1 f') ->
     let '(tr, f', q) := (let '(tr, f', q) := simulate f1 next k in (ev :: tr, f', q)) in trace p tr q /\ effects tr f f').
  { intros p0 ev f f1 next k D E H. destruct (simulate f1 next k) as [[tr f'] q]. destruct H. split; econstructor; eauto. }
  induction p as [code| |k IH|g k IH|q k IH|q k IH|q k IH|q m k IH|h d k IH|h k IH|t k IH|e k IH]; intros f next; cbn [simulate];
    try (split; constructor).
  - eapply M; [constructor|constructor|apply IH].
  - eapply M; [constructor|constructor|apply IH].
  - destruct (names f q) as [[|i]|]; (eapply M; [constructor|constructor|apply IH]).
  - eapply M; [constructor| |apply IH]. constructor; auto.
  - destruct (names f q) as [[|i]|] eqn:En; try (eapply M; [constructor|apply eff_read_fail|apply IH]).
    destruct (content f i) eqn:Ec; [|eapply M; [constructor|apply eff_read_fail|apply IH]].
    eapply M; [constructor|eapply eff_read_ok; eauto|apply IH].
  - destruct (names f q) as [[|i]|] eqn:En.
    + destruct m; (eapply M; [constructor| |apply IH]); econstructor; eauto.
    + destruct m; [eapply M; [constructor| |apply IH]; econstructor; eauto|].
      destruct (content f i) eqn:Ec; (eapply M; [constructor| |apply IH]); econstructor; eauto.
    + destruct (content f next) eqn:Ec; [eapply M; [constructor|apply eff_open_fail|apply IH]|].
      eapply M; [constructor|apply eff_open_new; auto|apply IH].
  - destruct (content f h) eqn:Ec; [|split; constructor]. eapply M; [constructor| |apply IH]. econstructor; eauto.
  - eapply M; [constructor|constructor|apply IH].
  - eapply M; [constructor|constructor|apply IH].
  - eapply M; [constructor|constructor|apply IH].
Qed.
End sim.

Lemma history_of f0 p0 tr f p : trace p0 tr p -> effects tr f0 f -> history alone f0 p0 tr f p.
Proof.
  intros T E. assert (G : forall tr1 f1 p1 tr2 p2 f2, history alone f0 p0 tr1 f1 p1 -> trace p1 tr2 p2 -> effects tr2 f1 f2 ->
    history alone f0 p0 (tr1 ++ tr2) f2 p2).
  2:{ apply (G [] f0 p0 tr p f); auto. constructor. }
  intros tr1 f1 p1 tr2. revert tr1 f1 p1. induction tr2 as [|ev tr2 IH]; intros tr1 f1 p1 p2 f2 H T2 E2.
  { rewrite app_nil_r. inversion T2; inversion E2; subst. exact H. }
  inversion T2; inversion E2; subst. replace (tr1 ++ ev :: tr2) with ((tr1 ++ [ev]) ++ tr2) by now rewrite <- app_assoc.
  eapply IH; eauto. eapply h_own; eauto.
Qed.
Lemma simulated stdin glob f0 p0 next :
  let '(tr, f, p) := simulate stdin glob f0 next p0 in history alone f0 p0 tr f p.
Proof.
  pose proof (simulate_runs stdin glob p0 f0 next) as H. destruct (simulate stdin glob f0 next p0) as [[tr f] p].
  now apply history_of.
Qed.

(** a file system from a list of files *)
Fixpoint index_of (p : path) (l : list (path * bytes)) (n : N) : option N :=
  match l with
  | [] => None
  | (q, _) :: t => if beqb p q then Some n else index_of p t (N.succ n)
  end.
Definition files (dirs : list path) (l : list (path * bytes)) : fs :=
  {| names := fun p => if existsb (beqb p) dirs then Some Directory
                       else match index_of p l 0 with Some i => Some (File i) | None => None end;
     content := fun i => match nth_error l (N.to_nat i) with Some (_, d) => Some d | None => None end |}.
Definition file_at (f : fs) (p : path) : option bytes :=
  match names f p with Some (File i) => content f i | _ => None end.
