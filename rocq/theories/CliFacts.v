(** Facts about the runs of the command line program. *)
From Coq Require Import List NArith Arith Bool String Lia.
From Verif Require Import Bytes BytesFacts NetUrl Cli SpecCli.
Import ListNotations.
Open Scope N_scope.
Open Scope list_scope.

(** ** Programs that only open exclusively and only write what they opened *)
Fixpoint careful (mine : list N) (p : prog) : Prop :=
  match p with
  | Exit _ | Panic => True
  | ReadStdin k => forall r, careful mine (k r)
  | Glob _ k => forall r, careful mine (k r)
  | Stat _ k => forall r, careful mine (k r)
  | MkdirAll _ k => forall r, careful mine (k r)
  | ReadFile _ k => forall r, careful mine (k r)
  | OpenFile _ m k =>
      m = Excl /\ (forall r, careful (match r with Opened i => i :: mine | _ => mine end) (k r)) /\
      forall r, (forall i, r <> Opened i) -> exists e, k r = WriteStderr e (Exit 1)
  | WriteData h _ k => In h mine /\ forall r, careful mine (k r)
  | CloseFile _ k => forall r, careful mine (k r)
  | WriteStdout _ k => forall r, careful mine (k r)
  | WriteStderr _ k => careful mine k
  end.
Definition ends (k : option error -> prog) : Prop :=
  forall e, exists e', e <> HelpRequested -> k (Some e) = WriteStderr e' (Exit 1).

Definition created1 (ev : event) : list N := match ev with EvOpen _ Excl (Opened i) => [i] | _ => [] end.
Lemma created_app t1 t2 : created (t1 ++ t2) = created t1 ++ created t2.
Proof.
  induction t1 as [|ev t IH]; [reflexivity|].
  destruct ev; cbn; rewrite ?IH; try reflexivity; destruct m; try reflexivity; destruct r; reflexivity.
Qed.
Lemma created_one ev : created [ev] = created1 ev.
Proof. destruct ev; reflexivity. Qed.

Lemma careful_more mine mine' p : incl mine mine' -> careful mine p -> careful mine' p.
Proof.
  revert mine mine'. induction p; intros mine mine' I C; cbn in *; auto; try (intros r; eapply H; eauto; fail).
  - destruct C as (E & C & F). split; [exact E|split; [|exact F]]. intros r. eapply H; [|exact (C r)].
    destruct r; auto. intros x [->|Hx]; [now left|right; now apply I].
  - destruct C as (E & C). split; [now apply I|]. intros r. eapply H; [exact I|apply C].
  - eauto.
Qed.

Lemma careful_does mine p ev p' : careful mine p -> does p ev p' -> careful (created1 ev ++ mine) p'.
Proof.
  intros C D. destruct D; cbn in C |- *; try apply C.
  destruct C as (-> & C & _). specialize (C r). destruct r; exact C.
Qed.

Section run.
Variable selector : Type.
Variable parse_group : bytes -> option (list selector).
Variable convert : config selector -> bytes -> option bytes.
Variable hash : bytes -> bytes.
Variable rel : path -> path -> option path.
Variable split_pattern : path -> path.
Variable usage version_text : bytes.
Notation main := (cli_main selector parse_group convert hash rel split_pattern usage version_text).
Notation exec := (execute selector parse_group convert hash rel split_pattern usage version_text).
Notation crun := (run selector parse_group convert hash rel split_pattern version_text).
Notation parse := (parse_flags selector parse_group).

(** Continuations that report an error and stop *)
Definition reports (k : option error -> prog) : Prop :=
  forall e, e <> HelpRequested -> k (Some e) = WriteStderr e (Exit 1).
Definition final : option error -> prog :=
  fun r => match r with
           | None => Exit 0
           | Some HelpRequested => WriteStdout usage (fun _ => Exit 0)
           | Some e => WriteStderr e (Exit 1)
           end.
Lemma final_reports : reports final.
Proof. intros e He. destruct e; try reflexivity. congruence. Qed.

Lemma careful_write_file mine p d k :
  reports k -> careful mine (k None) -> careful mine (write_file p d false k).
Proof.
  intros R C. cbn. split; [reflexivity|split].
  - intros [i| |]; cbn; [|rewrite R; [exact I|discriminate]..]. split; [now left|]. intros r1 r2. destruct (r1 && r2).
    + apply careful_more with (2 := C). intros x Hx. now right.
    + rewrite R; [exact I|discriminate].
  - intros r Hr. destruct r; [destruct (Hr h eq_refl)|rewrite R by discriminate..]; eauto.
Qed.
Lemma careful_write_output mine c t n d k :
  c_overwrite _ c = false -> reports k -> careful mine (k None) -> careful mine (write_output selector c t n d k).
Proof.
  intros O R C. unfold write_output. destruct t; [intros ?; exact C|rewrite O; now apply careful_write_file..].
Qed.
Lemma careful_read_input mine i k : (forall r, careful mine (k r)) -> careful mine (read_input i k).
Proof. intros A. unfold read_input. destruct (snd i); [apply A|exact A]. Qed.
Lemma careful_all mine c t ins k :
  c_overwrite _ c = false -> reports k -> careful mine (k None) -> careful mine (convert_all selector convert c t ins k).
Proof.
  intros O R C. revert mine C. induction ins as [|[i n] rest IH]; intros mine C; [exact C|]. cbn [convert_all].
  apply careful_read_input. intros [data|]; [|rewrite R; [exact I|discriminate]].
  destruct (convert c data) as [md|]; [|rewrite R; [exact I|discriminate]].
  apply careful_write_output; [exact O|intros e He; now apply R|]. now apply IH.
Qed.
Lemma careful_list_inputs mine pipe c k : (forall r, careful mine (k r)) -> careful mine (list_inputs selector pipe c k).
Proof.
  intros A. unfold list_inputs. destruct (negb (is_empty (c_input _ c))).
  { intros r. destruct r as [[|m ms]|]; [intros r; destruct r; apply A|apply A..]. }
  destruct pipe; [|apply A]. intros r. destruct r; apply A.
Qed.
Lemma careful_determine mine n out k : (forall r, careful mine (k r)) -> careful mine (determine_output n out k).
Proof.
  intros A. unfold determine_output. destruct (is_empty out); [destruct (Nat.ltb 1 n); apply A|].
  destruct (has_suffix [47] out); [apply A|]. destruct (Nat.ltb 1 n); [apply A|]. intros r. destruct r; apply A.
Qed.
Lemma careful_ensure mine t out k : (forall r, careful mine (k r)) -> careful mine (ensure_directories t out k).
Proof.
  intros A. unfold ensure_directories. destruct t; [apply A|intros r..]; destruct r; apply A.
Qed.

Definition no_overwrite (args : list bytes) : Prop := forall c rest, parse args = inl (c, rest) -> c_overwrite _ c = false.
Lemma careful_final e : careful [] (final (Some e)).
Proof. destruct e; cbn; auto. Qed.
Lemma careful_exec pipe args : no_overwrite args -> careful [] (exec pipe args).
Proof.
  intros NO. change (exec pipe args) with (crun pipe args final). unfold run.
  destruct (parse args) as [[c rest]|e] eqn:E; [|apply careful_final].
  specialize (NO c rest E).
  destruct (negb (is_empty rest)); [exact I|]. destruct (c_version _ c); [intros ?; exact I|].
  apply careful_list_inputs. intros [inputs|e]; [|apply careful_final].
  apply careful_determine. intros [t|e]; [|apply careful_final].
  apply careful_ensure. intros [e|]; [apply careful_final|].
  destruct (output_names _ _ _ _ _); [|apply careful_final].
  apply careful_all; [exact NO|exact final_reports|exact I].
Qed.
Lemma careful_main i o e args : no_overwrite args -> careful [] (main i o e args).
Proof. intros NO. destruct i, o, e; try exact I. now apply careful_exec. Qed.

(** ** C47 *)
Lemma effect_keeps ev f f' p p' mine :
  careful mine p -> does p ev p' -> effect ev f f' ->
  (forall i, content f i <> None -> ~ In i mine -> content f' i = content f i) /\
  (forall q x, names f q = Some x -> names f' q = Some x).
Proof.
  intros C D E. destruct E; try (split; intros; auto; fail).
  - split; [intros; now rewrite H1|exact H].
  - split.
    + intros j Hj _. cbn. destruct (j =? i) eqn:Ej; [apply N.eqb_eq in Ej; subst; congruence|reflexivity].
    + intros q x Hq. cbn. destruct (beqb q p0) eqn:Eq; [apply beqb_eq in Eq; subst; congruence|exact Hq].
  - inversion D; subst. destruct C as (C & _). discriminate.
  - inversion D; subst. destruct C as (C & _). split; [|auto]. intros j Hj Nj. cbn.
    destruct (j =? h) eqn:Ej; [apply N.eqb_eq in Ej; subst; contradiction|reflexivity].
Qed.
Lemma history_careful other f0 p0 tr f p :
  careful [] p0 -> history other f0 p0 tr f p -> careful (created tr) p.
Proof.
  intros C H. induction H; [exact C| |assumption]. rewrite created_app, created_one.
  apply careful_more with (mine := created1 ev ++ created tr).
  - intros x Hx. apply in_app_iff in Hx. apply in_app_iff. tauto.
  - eapply careful_does; eauto.
Qed.
Lemma no_change other f0 i o e args tr f p ev f' p' :
  no_overwrite args ->
  history other f0 (main i o e args) tr f p -> does p ev p' -> effect ev f f' ->
  (forall n, content f n <> None -> ~ In n (created tr) -> content f' n = content f n) /\
  (forall q x, names f q = Some x -> names f' q = Some x).
Proof.
  intros NO H D E. eapply effect_keeps; eauto. eapply history_careful; [|exact H]. now apply careful_main.
Qed.
(** alone: what was there at the start is there at every moment *)
Lemma alone_keeps f0 p0 tr f p :
  careful [] p0 -> history alone f0 p0 tr f p ->
  (forall n, In n (created tr) -> content f0 n = None) /\
  (forall n d, content f0 n = Some d -> content f n = Some d) /\
  (forall q x, names f0 q = Some x -> names f q = Some x).
Proof.
  intros C H. induction H as [|tr f p ev f' p' H IH D E|tr f p f' H IH O]; [cbn; tauto| |destruct O].
  destruct IH as (I1 & I2 & I3).
  assert (Hc := history_careful _ _ _ _ _ _ C H).
  destruct (effect_keeps _ _ _ _ _ _ Hc D E) as (K1 & K2).
  split; [|split].
  - intros n Hn. rewrite created_app, created_one in Hn. apply in_app_iff in Hn. destruct Hn as [Hn|Hn]; [auto|].
    destruct E; try (cbn in Hn; tauto); destruct m; cbn in Hn; try tauto.
    destruct Hn as [->|[]]. destruct (content f0 n) eqn:En; [|reflexivity]. apply I2 in En. congruence.
  - intros n d Hd. rewrite <- (I2 n d Hd). apply K1.
    + rewrite (I2 n d Hd). discriminate.
    + intros Hn. rewrite (I1 n Hn) in Hd. discriminate.
  - auto.
Qed.
Lemma crash_safe f0 i o e args tr f p q n d :
  no_overwrite args -> history alone f0 (main i o e args) tr f p ->
  names f0 q = Some (File n) -> content f0 n = Some d ->
  names f q = Some (File n) /\ content f n = Some d.
Proof.
  intros NO H Hq Hn. destruct (alone_keeps _ _ _ _ _ (careful_main i o e args NO) H) as (_ & K2 & K3). auto.
Qed.
(** an existing target makes the run fail *)
Lemma existing_fails other f0 i o e args tr f q m k x ev p' f' :
  no_overwrite args -> history other f0 (main i o e args) tr f (OpenFile q m k) ->
  names f q = Some x -> does (OpenFile q m k) ev p' -> effect ev f f' ->
  f' = f /\ exists err, p' = WriteStderr err (Exit 1).
Proof.
  intros NO H Hq D E.
  assert (C := history_careful _ _ _ _ _ _ (careful_main i o e args NO) H). destruct C as (-> & _ & F).
  inversion D; subst. inversion E; subst; try congruence.
  - split; [reflexivity|]. apply F. discriminate.
  - split; [reflexivity|]. apply F. discriminate.
Qed.

(** the flag must be given *)
Definition mentions (w : bytes) (s : bytes) : Prop := contains w s = true.
Lemma contains_tail w c s : contains w s = true -> contains w (c :: s) = true.
Proof. intros H. cbn [contains]. rewrite H. apply orb_true_r. Qed.
Lemma contains_app w a s : contains w s = true -> contains w (a ++ s) = true.
Proof. induction a; [auto|intros H; cbn [app]; apply contains_tail; auto]. Qed.
Lemma has_prefix_app_r (w s t : bytes) : has_prefix w s = true -> has_prefix w (s ++ t) = true.
Proof.
  revert s. induction w as [|c w IH]; [reflexivity|]. intros [|d s] H; [discriminate|]. cbn in *.
  apply andb_true_iff in H. destruct H as [-> H]. cbn. now apply IH.
Qed.
Lemma contains_app_l w s t : contains w s = true -> contains w (s ++ t) = true.
Proof.
  induction s as [|c s IH].
  - intros H. destruct w; [destruct t; reflexivity|discriminate].
  - intros H. cbn [contains] in H. apply orb_true_iff in H. destruct H as [H|H].
    + cbn [app contains]. change (c :: s ++ t) with ((c :: s) ++ t). rewrite has_prefix_app_r by exact H. reflexivity.
    + cbn [app]. apply contains_tail. auto.
Qed.
Lemma cut_at_eq sep s x y : cut_at sep s = Some (x, y) -> s = x ++ [sep] ++ y.
Proof.
  revert x. induction s as [|c t IH]; intros x H; [discriminate|]. cbn in H. destruct (c =? sep) eqn:E.
  - injection H as <- <-. apply N.eqb_eq in E. now subst.
  - destruct (cut_at sep t) as [[x' y']|]; [|discriminate]. injection H as <- <-. cbn. now rewrite (IH x' eq_refl).
Qed.
Lemma flag_of_name s name v : flag_of s = Word name v -> exists a z, s = a ++ name ++ z.
Proof.
  unfold flag_of. destruct s as [|c [|d t]]; [discriminate..|]. destruct (c =? 45); [|discriminate].
  destruct ((d =? 45) && is_empty t); [discriminate|].
  assert (X : forall l, match l with
      | [] => BadSyntax
      | n0 :: n => if (n0 =? 45) || (n0 =? 61) then BadSyntax
                   else match cut_at 61 n with Some (x, v) => Word (n0 :: x) (Some v) | None => Word (n0 :: n) None end
      end = Word name v -> exists z, l = name ++ z).
  { intros [|n0 n] H; [discriminate|]. destruct ((n0 =? 45) || (n0 =? 61)); [discriminate|].
    destruct (cut_at 61 n) as [[x y]|] eqn:Ec.
    - apply cut_at_eq in Ec. injection H as <- <-. exists ([61] ++ y). now rewrite Ec.
    - injection H as <- <-. exists []. now rewrite app_nil_r. }
  destruct (d =? 45); intros H.
  - destruct (X t H) as (z & Ez). exists [c; d], z. cbn. now rewrite Ez.
  - destruct (X (d :: t) H) as (z & Ez). exists [c], z. cbn. now rewrite Ez.
Qed.
Lemma flag_of_contains s name v : flag_of s = Word name v -> contains name s = true.
Proof.
  intros H. destruct (flag_of_name _ _ _ H) as (a & z & ->). apply contains_app, contains_app_l.
  clear. induction name; [reflexivity|]. cbn [contains].
  assert (P : has_prefix (a :: name) (a :: name) = true) by (apply has_prefix_iff; exists []; now rewrite app_nil_r).
  now rewrite P.
Qed.

Lemma beqb_refl' s : beqb s s = true. Proof. now apply beqb_eq. Qed.
(** which field a setter changes *)
Ltac each_flag H :=
  unfold find_flag in H;
  repeat match type of H with
         | (if ?t then _ else _) = Some _ => let E := fresh "E" in destruct t eqn:E
         end; try discriminate H.
Lemma setter_overwrite name st :
  find_flag selector parse_group name = Some st ->
  name = b "output-overwrite" \/
  match st with
  | SetBool _ f => forall x c, c_overwrite _ (f x c) = c_overwrite _ c
  | SetString _ f => forall v c c', f v c = Some c' -> c_overwrite _ c' = c_overwrite _ c
  end.
Proof.
  intros H. each_flag H; try (injection H as <-); try (left; now apply beqb_eq); right; try reflexivity;
    unfold single, selectors, plain; intros v c c' Hs;
    repeat match type of Hs with
           | (if ?t then _ else _) = Some _ => destruct t
           | match ?t with Some _ => _ | None => _ end = Some _ => destruct t
           end; try discriminate Hs; injection Hs as <-; reflexivity.
Qed.
Lemma parse_args_overwrite c args c' rest :
  parse_args selector parse_group c args = inl (c', rest) ->
  (forall a, In a args -> ~ mentions (b "output-overwrite") a) ->
  c_overwrite _ c' = c_overwrite _ c.
Proof.
  remember (List.length args) as n eqn:En. assert (L : (List.length args <= n)%nat) by lia. clear En.
  revert c args L. induction n as [|n IH]; intros c args L H N.
  { destruct args; [|cbn in L; lia]. cbn in H. now injection H as <- <-. }
  destruct args as [|s more]; [cbn in H; now injection H as <- <-|]. cbn [parse_args] in H.
  destruct (flag_of s) as [| | |name v] eqn:Ef; try discriminate; try (now injection H as <- <-).
  destruct (find_flag selector parse_group name) as [st|] eqn:Es; [|discriminate].
  destruct (setter_overwrite _ _ Es) as [->|K].
  { exfalso. apply (N s); [now left|]. now apply flag_of_contains with (1 := Ef). }
  assert (N' : forall a, In a more -> ~ mentions (b "output-overwrite") a) by (intros a Ha; apply N; now right).
  cbn in L.
  destruct st as [f|f].
  - destruct v as [v|].
    + destruct (parse_bool v); [|discriminate]. apply IH in H; [|lia|exact N']. now rewrite K in H.
    + apply IH in H; [|lia|exact N']. now rewrite K in H.
  - destruct v as [v|].
    + destruct (f v c) eqn:Ev; [|discriminate]. apply IH in H; [|lia|exact N']. now rewrite (K _ _ _ Ev) in H.
    + destruct more as [|v more']; [discriminate|]. destruct (f v c) eqn:Ev; [|discriminate].
      apply IH in H; [|cbn in L; lia|intros a Ha; apply N'; now right]. now rewrite (K _ _ _ Ev) in H.
Qed.
Lemma unmentioned args :
  (forall a, In a args -> ~ mentions (b "output-overwrite") a) -> no_overwrite args.
Proof.
  intros N c rest H. unfold parse_flags in H.
  destruct (parse_args selector parse_group (default_config selector) args) as [[c0 r0]|] eqn:E; [|discriminate].
  apply parse_args_overwrite in E; [|exact N].
  repeat match type of H with (if ?t then _ else _) = _ => destruct t; [discriminate|] end.
  injection H as <- _. now rewrite E.
Qed.
End run.
