(** What the command line program has done at any moment of a run (C75). *)
From Coq Require Import List NArith Arith Bool String Lia.
From Verif Require Import Bytes BytesFacts NetUrl Cli SpecCli CliFacts CliFacts2 CliFacts4.
Import ListNotations.
Open Scope N_scope.
Open Scope list_scope.

Lemma fst_combine (l1 : list input) (l2 : list bytes) :
  List.length l2 = List.length l1 -> map (fun x : input * bytes => fst (fst x)) (combine l1 l2) = map fst l1.
Proof. revert l2. induction l1 as [|x l1 IH]; intros [|y l2] L; cbn in *; try discriminate; [reflexivity|]. f_equal. apply IH. lia. Qed.
Lemma snd_combine {A B} (l1 : list A) (l2 : list B) : List.length l2 = List.length l1 -> map snd (combine l1 l2) = l2.
Proof. revert l2. induction l1 as [|x l1 IH]; intros [|y l2] L; cbn in *; try discriminate; [reflexivity|]. f_equal. apply IH. lia. Qed.
Section run.
Variable selector : Type.
Variable parse_group : bytes -> option (list selector).
Variable convert : config selector -> bytes -> option bytes.
Variable hash : bytes -> bytes.
Variable rel : path -> path -> option path.
Variable split_pattern : path -> path.
Variable usage version_text : bytes.
Notation main := (cli_main selector parse_group convert hash rel split_pattern usage version_text).
Notation exec := (execute selector parse_group convert hash rel split_pattern usage version_text).
Notation parse := (parse_flags selector parse_group).
Notation fin := (final usage).

Definition begun (c : config selector) (ps0 : list path) (names : list bytes) (tr : list event) : Prop := exists mds outs more ps,
  ps0 = files_read tr ++ ps /\ names = outs ++ more /\ List.length outs = List.length mds /\
  List.length (files_read tr) = List.length (data_read tr) /\ (List.length (data_read tr) <= S (List.length mds))%nat /\
  Forall2 (fun d md => convert c d = Some md) (firstn (List.length mds) (data_read tr)) mds /\
  written tr = combine (map (join_path (c_output _ c)) outs) mds /\ printed tr = [] /\ found tr = [].
Lemma begun_quiet c ps ns tr : files_read tr = [] -> data_read tr = [] -> written tr = [] -> printed tr = [] -> found tr = [] -> begun c ps ns tr.
Proof. intros A B C D E. exists [], [], ns, ps. rewrite A, B, C, D, E. cbn. repeat split; auto. Qed.
Lemma fin_any e tr p : e <> HelpRequested -> trace (fin (Some e)) tr p -> tr = [] \/ tr = [EvStderr e].
Proof. intros N T. rewrite final_reports in T by exact N. tr_step T; [auto|]. tr_step T0; subst; auto. Qed.
Lemma err_any e tr p : trace (WriteStderr e (Exit 1)) tr p -> tr = [] \/ tr = [EvStderr e].
Proof. intros T. tr_step T; [auto|]. tr_step T0; subst; auto. Qed.
Lemma begun_all c ins : (forall x, In x ins -> snd (fst x) = None) -> forall tr p,
  trace (convert_all selector convert c ToDirectory ins fin) tr p -> begun c (map (fun x => fst (fst x)) ins) (map snd ins) tr.
Proof.
  induction ins as [|[[q held] n] rest IH]; intros H tr p T.
  { cbn in T. inversion T; subst; [now apply begun_quiet|]. match goal with D : does _ _ _ |- _ => inversion D end. }
  pose proof (H _ (or_introl eq_refl)) as Hh. cbn [fst snd] in Hh. subst held. assert (H2 : forall x, In x rest -> snd (fst x) = None) by (intros; apply H; now right).
  cbn [convert_all read_input snd fst] in T. tr_step T; [subst; now apply begun_quiet|]. cbn [map fst snd].
  destruct r as [d|].
  2:{ apply err_any in T0 as [-> | ->]; now apply begun_quiet. }
  assert (One : forall t, files_read t = [] -> data_read t = [] -> written t = [] -> printed t = [] -> found t = [] ->
    begun c (q :: map (fun x => fst (fst x)) rest) (n :: map snd rest) (EvRead q (Some d) :: t)).
  { intros t A B C D E. exists [], [], (n :: map snd rest), (map (fun x => fst (fst x)) rest). cbn. rewrite A, B, C, D, E. cbn. repeat split; auto. }
  assert (Fin : forall e t, e <> HelpRequested -> trace (fin (Some e)) t p -> begun c (q :: map (fun x => fst (fst x)) rest) (n :: map snd rest) (EvRead q (Some d) :: t)).
  { intros e t N T. apply fin_any in T as [-> | ->]; [now apply One|now apply One|auto]. }
  destruct (convert c d) as [md|] eqn:Ec; [|apply (Fin ConvertFailed); [discriminate|exact T0]].
  unfold write_output, write_file in T0. tr_step T0; [subst; now apply One|]. destruct r as [h| |].
  2:{ apply err_any in T as [-> | ->]; now apply One. }
  2:{ apply err_any in T as [-> | ->]; now apply One. }
  tr_step T; [subst; now apply One|]. destruct r.
  2:{ tr_step T0; [subst; now apply One|]. cbn [andb] in T. apply err_any in T as [-> | ->]; now apply One. }
  assert (Wr : forall t, begun c (map (fun x => fst (fst x)) rest) (map snd rest) t ->
    begun c (q :: map (fun x => fst (fst x)) rest) (n :: map snd rest)
      (EvRead q (Some d) :: EvOpen (join_path (c_output selector c) n) (if c_overwrite selector c then Trunc else Excl) (Opened h) :: EvWrite h md true :: t)).
  { intros t (mds & outs & more & ps & A & B & C & D & E & F & G & I & J). exists (md :: mds), (n :: outs), more, ps.
    cbn [files_read data_read printed found written List.length firstn app map combine]. rewrite N.eqb_refl, <- G, <- A, <- B. repeat split; auto; lia. }
  tr_step T0; [subst; apply Wr; now apply begun_quiet|]. destruct r.
  - cbn [andb] in T. apply (IH H2) in T. apply Wr. destruct T as (mds & outs & more & ps & A & B & C & D & E & F & G & I & J). now exists mds, outs, more, ps.
  - cbn [andb] in T. apply Wr. apply err_any in T as [-> | ->]; now apply begun_quiet.
Qed.
Lemma run_prefix i o e args c tr p : parse args = inl (c, []) -> c_version _ c = false -> c_input _ c <> [] -> has_suffix [47] (c_output _ c) = true -> trace (main i o e args) tr p ->
  exists mds outs ps,
    found tr = files_read tr ++ ps /\ List.length outs = List.length mds /\
    (outs = [] \/ exists more, output_names hash rel (split_pattern (clean_path (c_input _ c))) [] (found tr) = Some (outs ++ more)) /\
    List.length (files_read tr) = List.length (data_read tr) /\ (List.length (data_read tr) <= S (List.length mds))%nat /\
    Forall2 (fun d md => convert c d = Some md) (firstn (List.length mds) (data_read tr)) mds /\
    written tr = combine (map (join_path (c_output _ c)) outs) mds /\ printed tr = [].
Proof.
  intros Ep Ev Ni Hs T.
  assert (Q : forall t, files_read t = [] -> data_read t = [] -> written t = [] -> printed t = [] -> exists mds outs ps,
    found t = files_read t ++ ps /\ List.length outs = List.length mds /\
    (outs = [] \/ exists more, output_names hash rel (split_pattern (clean_path (c_input _ c))) [] (found t) = Some (outs ++ more)) /\
    List.length (files_read t) = List.length (data_read t) /\ (List.length (data_read t) <= S (List.length mds))%nat /\
    Forall2 (fun d md => convert c d = Some md) (firstn (List.length mds) (data_read t)) mds /\
    written t = combine (map (join_path (c_output _ c)) outs) mds /\ printed t = []).
  { intros t A B C D. exists [], [], (found t). rewrite A, B, C, D. cbn. repeat split; auto. }
  unfold cli_main in T. destruct i as [pipe|]; [|inversion T; subst; [now apply Q|match goal with D : does _ _ _ |- _ => inversion D end]].
  destruct o as [o|]; [|inversion T; subst; [now apply Q|match goal with D : does _ _ _ |- _ => inversion D end]].
  destruct e as [e|]; [|inversion T; subst; [now apply Q|match goal with D : does _ _ _ |- _ => inversion D end]].
  unfold execute in T. fold fin in T. unfold run in T. rewrite Ep, Ev in T. cbn [is_empty negb] in T. unfold list_inputs in T.
  assert (Ei : is_empty (c_input _ c) = false) by (destruct (c_input _ c); easy). rewrite Ei in T. cbn [negb] in T.
  assert (Eo : is_empty (c_output _ c) = false) by (destruct (c_output _ c); easy).
  tr_step T; [subst; now apply Q|]. destruct r as [[|m ms]|].
  - tr_step T0; [subst; now apply Q|]. destruct r.
    all: apply err_any in T as [-> | ->]; now apply Q.
  - unfold determine_output in T0. rewrite Eo, Hs in T0. unfold ensure_directories in T0. tr_step T0; [subst; now apply Q|]. destruct r.
    2:{ apply err_any in T as [-> | ->]; now apply Q. }
    change (trace (match output_names hash rel (split_pattern (clean_path (c_input selector c))) [] (map fst (map (fun p : path => (p, @None bytes)) (m :: ms))) with
      | Some names => convert_all selector convert c ToDirectory (combine (map (fun p : path => (p, @None bytes)) (m :: ms)) names) fin
      | None => WriteStderr (RelFailed (c_input selector c)) (Exit 1) end) tr p) in T.
    destruct (output_names hash rel (split_pattern (clean_path (c_input _ c))) [] _) as [outs|] eqn:En; [|apply err_any in T as [-> | ->]; now apply Q].
    assert (Lo := names_length _ _ _ _ _ _ En). rewrite map_length in Lo.
    apply begun_all in T.
    2:{ intros [x y] Hx. apply in_combine_l in Hx. apply in_map_iff in Hx. destruct Hx as (z & <- & _). reflexivity. }
    rewrite fst_combine, snd_combine in T by exact Lo. rewrite map_map in *. cbn [fst] in *. rewrite map_id in *.
    destruct T as (mds & outs' & more & ps & A & B & C & D & E & F & G & I & J). exists mds, outs', ps. cbn [found files_read data_read printed].
    change (written (EvGlob ?g ?r :: EvMkdir ?x ?y :: tr)) with (written tr). rewrite J, app_nil_r. repeat split; auto. right. exists more. now rewrite En, B.
  - apply err_any in T0 as [-> | ->]; now apply Q.
Qed.
End run.
