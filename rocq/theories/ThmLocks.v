(** C76: registrations and conversions at the same time. *)
From Coq Require Import List Arith Bool Permutation.
From Verif Require Import Locks SpecLocks LocksFacts.
Import ListNotations.

(** Never are two goroutines about to use the slice at once, one of them to write it. *)
Theorem c76_no_race : forall handler sort programs init s,
  locked_only programs -> reach handler sort (start handler programs init) s -> ~ race s.
Proof. exact no_race. Qed.
Print Assumptions c76_no_race.

(** The uses of the slice that count for a race are all there are: a step that changes the slice counts as writing, and a step that
    does not count as a use does the same with any slice, and leaves it. *)
Theorem c76_accesses : forall handler sort (g : goroutine handler) s,
  (forall g' s', step1 handler sort g s = Some (g', s') -> slice s' <> slice s -> access g = Some true) /\
  (access g = None -> forall l, step1 handler sort g (with_slice handler l s) =
     option_map (fun r => (fst r, with_slice handler l (snd r))) (step1 handler sort g s)).
Proof. exact accesses_seen. Qed.
Print Assumptions c76_accesses.
(** A goroutine that is about to store its slice, and one that has copied everything *)
Example c76_accesses_ex :
  let sh := {| slice := [1]; writer := true; readers := 0 |} in
  let g := {| todo := [Register 2]; at_ := Appending [1]; got := [] |} in
  let r := {| todo := [Get]; at_ := Copying [1] 1; got := [] |} in
  option_map (fun x => slice (snd x)) (step1 nat (@rev nat) g sh) = Some [1; 2] /\ access g = Some true /\ access r = None
  /\ option_map (fun x => slice (snd x)) (step1 nat (@rev nat) r sh) = Some [1].
Proof. vm_compute. repeat split. Qed.

(** Each list that a conversion gets is the sorted slice of one moment: it has everything that was registered when the conversion
    asked for it and nothing that was not registered when it got it. *)
Theorem c76_snapshots : forall handler sort programs init s1 s2,
  locked_only programs -> reach handler sort (start handler programs init) s1 -> reach handler sort s1 s2 ->
  Forall2 (fun g1 g2 => exists slices, got g2 = got g1 ++ map sort slices /\
    Forall (between (slice (snd s1)) (slice (snd s2))) slices) (fst s1) (fst s2).
Proof. exact snapshots. Qed.
Print Assumptions c76_snapshots.

(** What a goroutine has registered is in the slice as soon as the call returned, and stays. *)
Theorem c76_registered : forall handler sort programs init s,
  locked_only programs -> reach handler sort (start handler programs init) s ->
  Forall2 (fun p g => exists done, p = done ++ todo g /\ incl (registers done) (slice (snd s))) programs (fst s).
Proof. exact registered. Qed.
Print Assumptions c76_registered.

(** At the end every handler is registered once for each registration. *)
Theorem c76_nothing_lost : forall handler sort programs init s,
  locked_only programs -> reach handler sort (start handler programs init) s -> Forall finished (fst s) ->
  Permutation (slice (snd s)) (init ++ flat_map registers programs).
Proof. exact nothing_lost. Qed.
Print Assumptions c76_nothing_lost.

(** There is no deadlock, *)
Theorem c76_no_deadlock : forall handler sort programs init s,
  locked_only programs -> reach handler sort (start handler programs init) s ->
  Forall finished (fst s) \/ exists s', step handler sort s s'.
Proof. exact no_deadlock. Qed.
Print Assumptions c76_no_deadlock.
(** not even if goroutines that want to read wait for those that want to write, as sync.RWMutex has it, *)
Theorem c76_no_deadlock_queue : forall handler sort programs init s,
  locked_only programs -> reach handler sort (start handler programs init) s ->
  Forall finished (fst s) \/ exists x g y g' s', fst s = x ++ g :: y /\ step1 handler sort g (snd s) = Some (g', s') /\
    (wants_read g = true -> forall o, In o (fst s) -> wants_write o = false).
Proof. exact no_deadlock_queue. Qed.
Print Assumptions c76_no_deadlock_queue.
(** and every run ends. *)
Theorem c76_ends : forall handler sort programs init,
  locked_only programs -> exists bound, forall n s, steps sort n (start handler programs init) s -> n <= bound.
Proof. exact runs_end. Qed.
Print Assumptions c76_ends.

(** Two goroutines that register and one that converts twice; the schedule lets the conversion wait for the first one and the
    second one wait for the conversion. *)
Definition c76_programs : list (list (op nat)) := [[Register 7; Register 3]; [Register 5; Get]; [Get; Get]].
Definition c76_schedule : list nat := [0;0;2;0;1;0; 2;1;2;0;2;2;1;2;1;1; 2;1;1; 0;0;0;0; 1;1;1;1;1; 2;2;2;2;2;2;2;2; 1;1;1;1].
Example c76_locked_ex : locked_only c76_programs.
Proof. intros p [<-|[<-|[<-|[]]]] H; cbn in H; repeat (destruct H as [H|H]; [discriminate|]); contradiction. Qed.
Example c76_reach_ex : reach nat (@rev nat) (start nat c76_programs [9]) (play nat (@rev nat) c76_schedule (start nat c76_programs [9])).
Proof. exact (play_reach nat (@rev nat) c76_schedule (start nat c76_programs [9])). Qed.
Example c76_run_ex : let s := play nat (@rev nat) c76_schedule (start nat c76_programs [9]) in
  map todo (fst s) = [[]; []; []] /\ map got (fst s) = [[]; [[3; 5; 7; 9]]; [[7; 9]; [3; 5; 7; 9]]] /\ slice (snd s) = [9; 7; 5; 3].
Proof. vm_compute. repeat split. Qed.

(** With something else done under the lock: the option of a conversion keeps the registration waiting, the registration for another
    slice keeps the conversion waiting. *)
Definition c76_more_programs : list (list (op nat)) := [[Register 7]; [Elsewhere true; Get]; [Elsewhere false; Elsewhere true]].
Definition c76_more_schedule : list nat := [2;0;1;2; 1;0;2;1; 2;1;2; 1;1;0;1;1;1; 0;0;0;0].
Example c76_more_locked_ex : locked_only c76_more_programs.
Proof. intros p [<-|[<-|[<-|[]]]] H; cbn in H; repeat (destruct H as [H|H]; [discriminate|]); contradiction. Qed.
Example c76_more_ex : let run n := play nat (@rev nat) (firstn n c76_more_schedule) (start nat c76_more_programs [9]) in
  map wants_read (fst (run 3)) = [false; false; false] /\ map wants_write (fst (run 3)) = [true; true; false] /\
  map wants_read (fst (run 0)) = [false; false; true] /\ map at_ (fst (run 3)) = [Outside; Outside; Busy false] /\ map at_ (fst (run 7)) = [Outside; Busy true; Outside]
  /\ map at_ (fst (run 10)) = [Outside; Outside; Busy true]
  /\ map todo (fst (run 21)) = [[]; []; []] /\ map got (fst (run 21)) = [[]; [[9]]; []] /\ slice (snd (run 21)) = [9; 7].
Proof. vm_compute. repeat split. Qed.

(** The names of the plugins (converter/convert.go:79-80) are looked at without the lock: this races with Register.Plugin. *)
Theorem c76_plugin_names_refuted : exists s : state nat,
  reach nat (fun l => l) (start nat [[Register 1]; [Peek]] []) s /\ race s.
Proof. exact peek_races. Qed.
Print Assumptions c76_plugin_names_refuted.
