(** Outputs of the command line program stay on disk from the moment they are written (C75). *)
From Coq Require Import List NArith Arith Bool String Lia.
From Verif Require Import Bytes BytesFacts NetUrl Cli SpecCli CliFacts CliFacts2 CliFacts4 CliPrefix.
Import ListNotations.
Open Scope N_scope.
Open Scope list_scope.

(** files are only opened exclusively, and written at most once, directly after they were opened *)
Fixpoint orderly (held : option N) (p : prog) : Prop :=
  match p with
  | Exit _ | Panic => True
  | ReadStdin k => forall r, orderly None (k r)
  | Glob _ k => forall r, orderly None (k r)
  | Stat _ k => forall r, orderly None (k r)
  | MkdirAll _ k => forall r, orderly None (k r)
  | ReadFile _ k => forall r, orderly None (k r)
  | OpenFile _ m k => m = Excl /\ forall r, orderly (match r with Opened h => Some h | _ => None end) (k r)
  | WriteData h _ k => held = Some h /\ forall r, orderly None (k r)
  | CloseFile _ k => forall r, orderly None (k r)
  | WriteStdout _ k => forall r, orderly None (k r)
  | WriteStderr _ k => orderly None k
  end.

Lemma orderly_disk p tr p' : trace p tr p' -> forall held f f', orderly held p -> effects tr f f' ->
  (forall q x, names f q = Some x -> names f' q = Some x) /\
  (forall i d, content f i = Some d -> held <> Some i -> content f' i = Some d) /\
  (forall h d t, held = Some h -> tr = EvWrite h d true :: t -> content f h = Some [] -> content f' h = Some d) /\
  (forall q d, In (q, d) (written tr) -> exists i, names f' q = Some (File i) /\ content f' i = Some d).
Proof.
  induction 1 as [p|p ev p1 tr p2 D T IH]; intros held f f' C E.
  { inversion E; subst. repeat split; auto; try discriminate. intros q d []. }
  inversion E as [|? ? ? f1 ? E1 E2]; subst.
  assert (Same : forall h0, f1 = f -> orderly h0 p1 -> h0 = None -> (forall p m h, ev <> EvOpen p m (Opened h)) -> (forall h d, ev <> EvWrite h d true) ->
    (forall q x, names f q = Some x -> names f' q = Some x) /\
    (forall i d, content f i = Some d -> held <> Some i -> content f' i = Some d) /\
    (forall h d t, held = Some h -> ev :: tr = EvWrite h d true :: t -> content f h = Some [] -> content f' h = Some d) /\
    (forall q d, In (q, d) (written (ev :: tr)) -> exists i, names f' q = Some (File i) /\ content f' i = Some d)).
  { intros h0 -> O -> No Nw. destruct (IH None f f' O E2) as (A & B & _ & W). split; [exact A|]. split; [intros i d Hd _; apply B; [exact Hd|discriminate]|].
    split; [intros h d t _ X; injection X as X _; now destruct (Nw h d)|]. intros q d Hq. apply W. now rewrite written_other in Hq. }
  destruct D; cbn [orderly] in C.
  - inversion E1; subst. apply (Same None); auto; discriminate.
  - inversion E1; subst. apply (Same None); auto; discriminate.
  - inversion E1; subst. apply (Same None); auto; discriminate.
  - inversion E1 as [| | |? ? ? ? M1 M2 M3| | | | | | | | | |]; subst. destruct (IH None f1 f' (C r) E2) as (A & B & _ & W).
    split; [auto|]. split; [intros i d Hd _; apply B; [now rewrite M3|discriminate]|]. split; [discriminate|]. exact W.
  - inversion E1; subst; apply (Same None); auto; discriminate.
  - destruct C as [-> C]. specialize (C r). inversion E1 as [| | | | | |? ? ?|? ? ? Hx|? ? ? i Hn Hc| | | | |]; subst.
    + apply (Same None); auto; discriminate.
    + apply (Same None); auto; discriminate.
    + cbn in C. destruct (IH _ _ _ C E2) as (A & B & Cw & W). cbn in A, B, Cw.
      assert (A' : forall q x, names f q = Some x -> names f' q = Some x).
      { intros q x Hq. apply A. destruct (beqb q p) eqn:Eq; [apply beqb_eq in Eq; subst; congruence|exact Hq]. }
      split; [exact A'|]. split.
      { intros j d Hd _. assert (j <> i) by congruence. apply B; [|congruence]. destruct (j =? i) eqn:Ej; [apply N.eqb_eq in Ej; congruence|exact Hd]. }
      split; [discriminate|]. intros q d Hq.
      assert (Hq' : (q, d) = (p, d) /\ (exists t, tr = EvWrite i d true :: t) \/ In (q, d) (written tr)).
      { destruct tr as [|ev' t]; [destruct Hq|]. destruct ev'; try (right; exact Hq). destruct r; [|right; exact Hq].
        change (In (q, d) (if i =? h then (p, data) :: written (EvWrite h data true :: t) else written (EvWrite h data true :: t))) in Hq.
        destruct (i =? h) eqn:Eh; [|right; exact Hq]. apply N.eqb_eq in Eh. subst h. destruct Hq as [Hq|Hq]; [|right; exact Hq].
        left. injection Hq as <- <-. split; [reflexivity|eauto]. }
      destruct Hq' as [(X & t & ->)|Hq']; [|now apply W]. injection X as ->. exists i. split.
      * apply A. now rewrite beqb_refl.
      * eapply Cw; [reflexivity|reflexivity|now rewrite N.eqb_refl].
  - destruct C as [-> C]. specialize (C r). inversion E1 as [| | | | | | | | | |? ? ? ? old new Ho Hw| | |]; subst.
    destruct (IH _ _ _ C E2) as (A & B & _ & W). cbn in A, B. split; [exact A|]. split.
    { intros i d' Hd Hi. apply B; [|discriminate]. destruct (i =? h) eqn:Ei; [apply N.eqb_eq in Ei; subst; congruence|exact Hd]. }
    split; [|exact W]. intros h' d' t X Y Hc. injection X as <-. injection Y as <- -> _. apply B; [|discriminate]. rewrite N.eqb_refl.
    f_equal. apply Hw; congruence.
  - inversion E1; subst. apply (Same None); auto; discriminate.
  - inversion E1; subst. apply (Same None); auto; discriminate.
  - inversion E1; subst. apply (Same None); auto; discriminate.
Qed.

Section run.
Variable selector : Type.
Variable parse_group : bytes -> option (list selector).
Variable convert : config selector -> bytes -> option bytes.
Variable hash : bytes -> bytes.
Variable rel : path -> path -> option path.
Variable split_pattern : path -> path.
Variable usage version_text : bytes.
Notation main := (cli_main selector parse_group convert hash rel split_pattern usage version_text).
Notation exec := (execute selector parse_group convert hash rel split_pattern usage version_text).
Notation crun := (run selector parse_group convert hash rel split_pattern version_text).
Notation parse := (parse_flags selector parse_group).
Notation fin := (final usage).

Lemma orderly_fin h e : orderly h (fin (Some e)).
Proof. destruct e; cbn; auto. Qed.
Lemma orderly_write_file held p d k :
  (forall h e, orderly h (k (Some e))) -> (forall h, orderly h (k None)) -> orderly held (write_file p d false k).
Proof.
  intros R C. cbn. split; [reflexivity|]. intros [i| |]; cbn; auto. split; [reflexivity|]. intros r1 r2. destruct (r1 && r2); auto.
Qed.
Lemma orderly_read_input i k : (forall h r, orderly h (k r)) -> forall h, orderly h (read_input i k).
Proof. intros A h. unfold read_input. destruct (snd i); [apply A|intros r; apply A]. Qed.
Lemma orderly_all c t ins k : c_overwrite _ c = false -> (forall h e, orderly h (k (Some e))) -> (forall h, orderly h (k None)) ->
  forall held, orderly held (convert_all selector convert c t ins k).
Proof.
  intros O R C. induction ins as [|[i n] rest IH]; intros held; [apply C|]. cbn [convert_all].
  apply orderly_read_input. intros h [data|]; [|apply R]. destruct (convert c data) as [md|]; [|apply R].
  unfold write_output. destruct t; [intros ?; apply IH|rewrite O; apply orderly_write_file; auto..].
Qed.
Lemma orderly_list_inputs pipe c k : (forall h r, orderly h (k r)) -> forall h, orderly h (list_inputs selector pipe c k).
Proof.
  intros A h. unfold list_inputs. destruct (negb (is_empty (c_input _ c))).
  { intros r. destruct r as [[|m ms]|]; [intros r; destruct r; apply A|apply A..]. }
  destruct pipe; [|apply A]. intros r. destruct r; apply A.
Qed.
Lemma orderly_determine n out k : (forall h r, orderly h (k r)) -> forall h, orderly h (determine_output n out k).
Proof.
  intros A h. unfold determine_output. destruct (is_empty out); [destruct (Nat.ltb 1 n); apply A|].
  destruct (has_suffix [47] out); [apply A|]. destruct (Nat.ltb 1 n); [apply A|]. intros r. destruct r; apply A.
Qed.
Lemma orderly_ensure t out k : (forall h r, orderly h (k r)) -> forall h, orderly h (ensure_directories t out k).
Proof. intros A h. unfold ensure_directories. destruct t; [apply A|intros r..]; destruct r; apply A. Qed.
Lemma orderly_exec pipe args : no_overwrite selector parse_group args -> orderly None (exec pipe args).
Proof.
  intros NO. change (exec pipe args) with (crun pipe args fin). unfold run.
  destruct (parse args) as [[c rest]|e] eqn:E; [|apply orderly_fin].
  specialize (NO c rest E).
  destruct (negb (is_empty rest)); [exact I|]. destruct (c_version _ c); [intros ?; exact I|].
  apply orderly_list_inputs. intros h1 [inputs|e]; [|apply orderly_fin].
  apply orderly_determine. intros h2 [t|e]; [|apply orderly_fin].
  apply orderly_ensure. intros h3 [e|]; [apply orderly_fin|].
  destruct (output_names _ _ _ _ _); [|apply orderly_fin].
  apply orderly_all; [exact NO|intros; apply orderly_fin|intros; exact I].
Qed.
Lemma orderly_main i o e args : no_overwrite selector parse_group args -> orderly None (main i o e args).
Proof. intros NO. destruct i, o, e; try exact I. now apply orderly_exec. Qed.
End run.

(** ** For a world *)
Lemma w_prefix w i o e args c tr p :
  accepts w args c -> c_version _ c = false -> c_input _ c <> [] -> has_suffix (b "/") (c_output _ c) = true ->
  trace (program w i o e args) tr p ->
  exists mds outs waiting,
    found tr = files_read tr ++ waiting /\
    List.length (files_read tr) = List.length (data_read tr) /\
    (List.length (data_read tr) <= S (List.length mds))%nat /\ List.length outs = List.length mds /\
    Forall2 (fun d md => w_convert w c d = Some md) (firstn (List.length mds) (data_read tr)) mds /\
    (outs = [] \/ exists more, output_names (w_hash w) (w_rel w) (w_split w (clean_path (c_input _ c))) [] (found tr) = Some (outs ++ more)) /\
    written tr = combine (map (join_path (c_output _ c)) outs) mds /\ printed tr = [].
Proof.
  intros A V I S T. destruct (run_prefix _ _ _ _ _ _ _ _ i o e args c tr p A V I S T) as (mds & outs & ps & H1 & H2 & H3 & H4 & H5 & H6 & H7 & H8).
  exists mds, outs, ps. auto 10.
Qed.
Lemma w_stays w i o e args f0 tr f p :
  keeps_files w args -> history alone f0 (program w i o e args) tr f p ->
  forall q d, In (q, d) (written tr) -> exists n, names f q = Some (File n) /\ content f n = Some d.
Proof.
  intros K H. pose proof (history_trace _ _ _ _ _ _ H) as T. apply history_effects in H.
  eapply orderly_disk; [exact T| |exact H]. apply orderly_main. exact K.
Qed.
