(** Facts about the selectors of the command line program. *)
From Coq Require Import List NArith ZArith Bool String Lia Permutation.
From Verif Require Import Bytes Dom SpecDom RenderInv Cli CliConvert SpecSelect.
Import ListNotations.
Open Scope N_scope.
Open Scope list_scope.

Section sel.
Variable sel : place -> node -> bool.
Let T (l : list node) : bytes := flat_map text_of l.

(** named copies of the inner loops *)
Definition extract_list (sh : node) (pl : place) := fix go (left l : list node) : list node * list node :=
  match l with
  | [] => ([], [])
  | k :: r => let '(f1, r1) := extract sel ((left, sh, r) :: pl) k in
              let '(f2, r2) := go (k :: left) r in (f1 ++ f2, r1 ++ r2)
  end.
Definition pieces_list (i : bool) (sh : node) (pl : place) := fix go (left l : list node) : list (bool * bytes) :=
  match l with
  | [] => []
  | k :: r => pieces sel i ((left, sh, r) :: pl) k ++ go (k :: left) r
  end.
Definition nesting_list (i : bool) (sh : node) (pl : place) := fix go (left l : list node) : bool :=
  match l with
  | [] => true
  | k :: r => no_nesting sel i ((left, sh, r) :: pl) k && go (k :: left) r
  end.
Definition pruned_list (sh : node) (pl : place) := fix go (left l : list node) : list node :=
  match l with
  | [] => []
  | k :: r => pruned sel ((left, sh, r) :: pl) k ++ go (k :: left) r
  end.
Definition exclude_list (sh : node) (pl : place) := fix go (left l : list node) : list node :=
  match l with
  | [] => []
  | k :: r => let r' := go (k :: left) r in exclude_in sel ((left, sh, r') :: pl) k ++ r'
  end.
Lemma extract_cons sh pl left k r : extract_list sh pl left (k :: r) =
  (fst (extract sel ((left, sh, r) :: pl) k) ++ fst (extract_list sh pl (k :: left) r),
   snd (extract sel ((left, sh, r) :: pl) k) ++ snd (extract_list sh pl (k :: left) r)).
Proof.
  change (extract_list sh pl left (k :: r)) with (let '(f1, r1) := extract sel ((left, sh, r) :: pl) k in
    let '(f2, r2) := extract_list sh pl (k :: left) r in (f1 ++ f2, r1 ++ r2)).
  destruct (extract sel _ k). now destruct (extract_list sh pl (k :: left) r).
Qed.
Lemma pieces_cons i sh pl left k r : pieces_list i sh pl left (k :: r) = pieces sel i ((left, sh, r) :: pl) k ++ pieces_list i sh pl (k :: left) r.
Proof. reflexivity. Qed.
Lemma nesting_cons i sh pl left k r : nesting_list i sh pl left (k :: r) = no_nesting sel i ((left, sh, r) :: pl) k && nesting_list i sh pl (k :: left) r.
Proof. reflexivity. Qed.
Lemma pruned_cons sh pl left k r : pruned_list sh pl left (k :: r) = pruned sel ((left, sh, r) :: pl) k ++ pruned_list sh pl (k :: left) r.
Proof. reflexivity. Qed.
Lemma exclude_cons sh pl left k r : exclude_list sh pl left (k :: r) =
  exclude_in sel ((left, sh, exclude_list sh pl (k :: left) r) :: pl) k ++ exclude_list sh pl (k :: left) r.
Proof. reflexivity. Qed.

Lemma extract_kids_list pl n left l : extract_kids sel pl n left l = fst (extract_list (shell n) pl left l).
Proof.
  revert left. induction l as [|k r IH]; intros left; [reflexivity|]. cbn [extract_kids]. now rewrite IH, extract_cons.
Qed.

Lemma text_where_app f l1 l2 : text_where f (l1 ++ l2) = text_where f l1 ++ text_where f l2.
Proof. apply flat_map_app. Qed.

(** inside everything counts *)
Lemma pieces_inside n : forall pl, text_where true (pieces sel true pl n) = text_of n /\ text_where false (pieces sel true pl n) = [].
Proof.
  assert (L : forall ks, Forall (fun n => forall pl, text_where true (pieces sel true pl n) = text_of n /\ text_where false (pieces sel true pl n) = []) ks ->
    forall sh pl left, text_where true (pieces_list true sh pl left ks) = T ks /\ text_where false (pieces_list true sh pl left ks) = []).
  { induction 1 as [|k ks Hk _ IH]; intros sh pl left; [split; reflexivity|].
    rewrite pieces_cons, !text_where_app. destruct (Hk ((left, sh, ks) :: pl)) as [-> ->]. destruct (IH sh pl (k :: left)) as [-> ->].
    split; reflexivity. }
  induction n using node_induction; intros pl.
  - cbn. rewrite app_nil_r. auto.
  - exact (L ks H (Elem x a []) pl []).
  - split; reflexivity.
  - exact (L ks H (Doc []) pl []).
  - split; reflexivity.
Qed.

Definition good (n : node) : Prop := forall pl,
  T (snd (extract sel pl n)) = text_where false (pieces sel false pl n) /\
  Permutation (T (fst (extract sel pl n))) (text_where true (pieces sel false pl n)) /\
  Permutation (text_where true (pieces sel false pl n) ++ text_where false (pieces sel false pl n)) (text_of n).
Lemma list_good ks : Forall good ks -> forall sh pl left,
  T (snd (extract_list sh pl left ks)) = text_where false (pieces_list false sh pl left ks) /\
  Permutation (T (fst (extract_list sh pl left ks))) (text_where true (pieces_list false sh pl left ks)) /\
  Permutation (text_where true (pieces_list false sh pl left ks) ++ text_where false (pieces_list false sh pl left ks)) (T ks).
Proof.
  induction 1 as [|k ks Hk _ IH]; intros sh pl left; [repeat split; constructor|].
  rewrite extract_cons, pieces_cons. destruct (Hk ((left, sh, ks) :: pl)) as (A & B & C). destruct (IH sh pl (k :: left)) as (A' & B' & C').
  cbn [fst snd]. unfold T in *. rewrite !flat_map_app, !text_where_app. rewrite A, A'. split; [reflexivity|]. split.
  - now apply Permutation_app.
  - cbn [flat_map]. rewrite <- C, <- C'.
    set (t1 := text_where true _). set (t2 := text_where true _). set (o1 := text_where false _). set (o2 := text_where false _).
    rewrite <- !app_assoc. apply Permutation_app_head. rewrite !app_assoc. apply Permutation_app_tail. apply Permutation_app_comm.
Qed.
Lemma extract_good n : good n.
Proof.
  assert (K : forall mk ks, (forall l, kids (mk l) = l) -> (forall l, text_of (mk l) = T l) -> Forall good ks ->
    (forall pl, extract sel pl (mk ks) = let '(inner, rest) := extract_list (mk []) pl [] ks in
       if sel pl (mk ks) then (mk rest :: inner, []) else (inner, [mk rest])) ->
    (forall i pl, pieces sel i pl (mk ks) = pieces_list (i || sel pl (mk ks)) (mk []) pl [] ks) -> good (mk ks)).
  { intros mk ks _ Ht F E P pl. rewrite E, P. cbn [orb]. destruct (list_good ks F (mk []) pl []) as (A & B & C).
    destruct (extract_list (mk []) pl [] ks) as [inner rest]. cbn [fst snd] in *. destruct (sel pl (mk ks)); cbn [fst snd].
    - assert (I := proj1 (pieces_inside (mk ks) pl)). assert (O := proj2 (pieces_inside (mk ks) pl)). rewrite P in I, O. cbn [orb] in I, O.
      rewrite I, O. split; [reflexivity|]. split; [|now rewrite app_nil_r].
      unfold T in *. cbn [flat_map]. rewrite !Ht. rewrite A, B. now rewrite Permutation_app_comm.
    - split; [|split; [exact B|now rewrite Ht]]. unfold T in *. cbn [flat_map]. now rewrite app_nil_r, Ht. }
  induction n using node_induction.
  - intros pl. cbn [extract pieces text_of orb]. unfold T. destruct (sel pl (Text d)); cbn; rewrite ?app_nil_r; auto.
  - apply (K (Elem x a)); auto.
  - intros pl. cbn [extract pieces text_of orb]. unfold T. destruct (sel pl (Comment d)); cbn; auto.
  - apply (K Doc); auto.
  - intros pl. cbn [extract pieces text_of orb]. unfold T. destruct (sel pl (Other d)); cbn; auto.
Qed.
(** without nesting nothing is moved inside *)
Lemma no_match n : forall pl, no_nesting sel true pl n = true -> extract sel pl n = ([], [n]).
Proof.
  assert (L : forall ks, Forall (fun n => forall pl, no_nesting sel true pl n = true -> extract sel pl n = ([], [n])) ks ->
    forall sh pl left, nesting_list true sh pl left ks = true -> extract_list sh pl left ks = ([], ks)).
  { induction 1 as [|k ks Hk _ IH]; intros sh pl left; [reflexivity|]. rewrite nesting_cons, extract_cons.
    intros H. apply andb_true_iff in H. destruct H as [H1 H2]. now rewrite (Hk _ H1), (IH _ _ _ H2). }
  assert (K : forall mk ks pl, extract sel pl (mk ks) = (let '(inner, rest) := extract_list (mk []) pl [] ks in
       if sel pl (mk ks) then (mk rest :: inner, []) else (inner, [mk rest])) ->
    no_nesting sel true pl (mk ks) = negb (sel pl (mk ks)) && nesting_list true (mk []) pl [] ks ->
    Forall (fun n => forall pl, no_nesting sel true pl n = true -> extract sel pl n = ([], [n])) ks ->
    no_nesting sel true pl (mk ks) = true -> extract sel pl (mk ks) = ([], [mk ks])).
  { intros mk ks pl E N F H. rewrite N in H. apply andb_true_iff in H. destruct H as [H1 H2]. apply negb_true_iff in H1.
    rewrite E, (L ks F _ _ _ H2), H1. reflexivity. }
  induction n using node_induction; intros pl H0.
  - cbn in *. destruct (sel pl (Text d)); [discriminate|reflexivity].
  - apply (K (Elem x a)); auto.
  - cbn in *. destruct (sel pl (Comment d)); [discriminate|reflexivity].
  - apply (K Doc); auto.
  - cbn in *. destruct (sel pl (Other d)); [discriminate|reflexivity].
Qed.
Definition ordered (n : node) : Prop := forall pl, no_nesting sel false pl n = true ->
  T (fst (extract sel pl n)) = text_where true (pieces sel false pl n).
Lemma list_ordered ks : Forall ordered ks -> forall sh pl left, nesting_list false sh pl left ks = true ->
  T (fst (extract_list sh pl left ks)) = text_where true (pieces_list false sh pl left ks).
Proof.
  induction 1 as [|k ks Hk _ IH]; intros sh pl left; [reflexivity|]. rewrite nesting_cons, extract_cons, pieces_cons, text_where_app.
  intros H. apply andb_true_iff in H. destruct H as [H1 H2]. cbn [fst]. unfold ordered in Hk. unfold T in *. now rewrite flat_map_app, (Hk _ H1), (IH _ _ _ H2).
Qed.
Lemma extract_ordered n : ordered n.
Proof.
  assert (NM : forall ks sh pl left, nesting_list true sh pl left ks = true -> extract_list sh pl left ks = ([], ks)).
  { induction ks as [|k ks IH]; intros sh pl left; [reflexivity|]. rewrite nesting_cons, extract_cons.
    intros H. apply andb_true_iff in H. destruct H as [H1 H2]. now rewrite (no_match _ _ H1), (IH _ _ _ H2). }
  assert (K : forall mk ks, (forall pl, extract sel pl (mk ks) = (let '(inner, rest) := extract_list (mk []) pl [] ks in
       if sel pl (mk ks) then (mk rest :: inner, []) else (inner, [mk rest]))) ->
    (forall pl, no_nesting sel false pl (mk ks) = nesting_list (sel pl (mk ks)) (mk []) pl [] ks) ->
    (forall i pl, pieces sel i pl (mk ks) = pieces_list (i || sel pl (mk ks)) (mk []) pl [] ks) ->
    Forall ordered ks -> ordered (mk ks)).
  { intros mk ks E N P F pl H. rewrite N in H. rewrite E, P. cbn [orb]. destruct (sel pl (mk ks)) eqn:S.
    - rewrite (NM _ _ _ _ H). cbn [fst]. assert (I := proj1 (pieces_inside (mk ks) pl)). rewrite P in I. cbn [orb] in I.
      rewrite I. unfold T. cbn. apply app_nil_r.
    - assert (X := list_ordered ks F (mk []) pl [] H). destruct (extract_list (mk []) pl [] ks). exact X. }
  induction n using node_induction.
  - intros pl _. cbn. destruct (sel pl (Text d)); cbn; now rewrite ?app_nil_r.
  - apply (K (Elem x a)); auto.
  - intros pl _. cbn. destruct (sel pl (Comment d)); reflexivity.
  - apply (K Doc); auto.
  - intros pl _. cbn. destruct (sel pl (Other d)); reflexivity.
Qed.

(** include *)
Definition doc_like (doc : node) : Prop := exists ks, doc = Doc ks.
Lemma include_text ks : sel [] (Doc ks) = false ->
  Permutation (text_of (include_nodes sel (Doc ks))) (text_where true (pieces sel false [] (Doc ks))).
Proof.
  intros R. unfold include_nodes. cbn [text_of kids]. rewrite extract_kids_list.
  replace (pieces sel false [] (Doc ks)) with (pieces_list (sel [] (Doc ks)) (Doc []) [] [] ks) by reflexivity. rewrite R.
  apply list_good. apply Forall_forall. intros n _. apply extract_good.
Qed.
Lemma include_order ks : sel [] (Doc ks) = false -> no_nesting sel false [] (Doc ks) = true ->
  text_of (include_nodes sel (Doc ks)) = text_where true (pieces sel false [] (Doc ks)).
Proof.
  intros R N. unfold include_nodes. cbn [text_of kids]. rewrite extract_kids_list.
  replace (no_nesting sel false [] (Doc ks)) with (nesting_list (sel [] (Doc ks)) (Doc []) [] [] ks) in N by reflexivity.
  replace (pieces sel false [] (Doc ks)) with (pieces_list (sel [] (Doc ks)) (Doc []) [] [] ks) by reflexivity. rewrite R in *.
  apply list_ordered; [|exact N]. apply Forall_forall. intros n _. apply extract_ordered.
Qed.

(** exclude *)
Hypothesis Hleft : looks_left sel.
Lemma exclude_pruned n : forall pl pl', left_of pl = left_of pl' -> exclude_in sel pl n = pruned sel pl' n.
Proof.
  assert (L : forall ks, Forall (fun n => forall pl pl', left_of pl = left_of pl' -> exclude_in sel pl n = pruned sel pl' n) ks ->
    forall sh pl pl' left, left_of pl = left_of pl' -> exclude_list sh pl left ks = pruned_list sh pl' left ks).
  { induction 1 as [|k ks Hk _ IH]; intros sh pl pl' left E; [reflexivity|]. rewrite exclude_cons, pruned_cons.
    rewrite (IH sh pl pl' (k :: left) E). f_equal. apply Hk. unfold left_of in *. cbn. now rewrite E. }
  induction n using node_induction; intros pl pl' E; cbn [exclude_in pruned]; rewrite (Hleft _ _ _ E);
    (destruct (sel pl' _); [reflexivity|]); try reflexivity.
  - f_equal. f_equal. exact (L ks H (Elem x a []) pl pl' [] E).
  - f_equal. f_equal. exact (L ks H (Doc []) pl pl' [] E).
Qed.
End sel.
Lemma pruned_text sel n : forall pl, flat_map text_of (pruned sel pl n) = text_where false (pieces sel false pl n).
Proof.
  assert (L : forall ks, Forall (fun n => forall pl, flat_map text_of (pruned sel pl n) = text_where false (pieces sel false pl n)) ks ->
    forall sh pl left, flat_map text_of (pruned_list sel sh pl left ks) = text_where false (pieces_list sel false sh pl left ks)).
  { induction 1 as [|k ks Hk _ IH]; intros sh pl left; [reflexivity|]. rewrite pruned_cons, pieces_cons, flat_map_app, text_where_app.
    now rewrite Hk, IH. }
  assert (K : forall mk ks, (forall l, text_of (mk l) = flat_map text_of l) ->
    (forall pl, pruned sel pl (mk ks) = if sel pl (mk ks) then [] else [mk (pruned_list sel (mk []) pl [] ks)]) ->
    (forall i pl, pieces sel i pl (mk ks) = pieces_list sel (i || sel pl (mk ks)) (mk []) pl [] ks) ->
    Forall (fun n => forall pl, flat_map text_of (pruned sel pl n) = text_where false (pieces sel false pl n)) ks ->
    forall pl, flat_map text_of (pruned sel pl (mk ks)) = text_where false (pieces sel false pl (mk ks))).
  { intros mk ks Ht E P F pl. assert (O := proj2 (pieces_inside sel (mk ks) pl)). rewrite P in O. cbn [orb] in O. rewrite E, P. cbn [orb].
    destruct (sel pl (mk ks)); [now rewrite O|]. cbn [flat_map]. rewrite Ht, app_nil_r. now apply L. }
  induction n using node_induction; intros pl.
  - cbn. destruct (sel pl (Text d)); cbn; now rewrite ?app_nil_r.
  - apply (K (Elem x a)); auto.
  - cbn. destruct (sel pl (Comment d)); reflexivity.
  - apply (K Doc); auto.
  - cbn. destruct (sel pl (Other d)); reflexivity.
Qed.
Lemma exclude_tree sel doc : looks_left sel -> sel [] doc = false -> [exclude_nodes sel doc] = pruned sel [] doc.
Proof.
  intros L R. unfold exclude_nodes. rewrite <- (exclude_pruned sel L doc [] [] eq_refl).
  destruct doc as [d|x a ks|d|ks|d]; cbn [exclude_in]; rewrite R; reflexivity.
Qed.
Lemma exclude_text sel doc : looks_left sel -> sel [] doc = false ->
  text_of (exclude_nodes sel doc) = text_where false (pieces sel false [] doc).
Proof.
  intros L R. rewrite <- pruned_text, <- (exclude_tree sel doc L R). cbn. now rewrite app_nil_r.
Qed.

(** the selection of a parsed document is as a parser makes it *)
From Verif Require Import DomFacts.
Lemma extract_tk sel n : forall pl, tk n = true -> tks (fst (extract sel pl n)) = true /\ tks (snd (extract sel pl n)) = true.
Proof.
  assert (L : forall ks, Forall (fun n => forall pl, tk n = true -> tks (fst (extract sel pl n)) = true /\ tks (snd (extract sel pl n)) = true) ks ->
    forall sh pl left, tks ks = true -> tks (fst (extract_list sel sh pl left ks)) = true /\ tks (snd (extract_list sel sh pl left ks)) = true).
  { induction 1 as [|k ks Hk _ IH]; intros sh pl left H; [split; reflexivity|]. rewrite tks_cons in H. apply andb_true_iff in H. destruct H as [H1 H2].
    rewrite extract_cons. cbn [fst snd]. rewrite !tks_app. destruct (Hk ((left, sh, ks) :: pl) H1) as [-> ->].
    destruct (IH sh pl (k :: left) H2) as [-> ->]. auto. }
  induction n as [d|x a ks F|d|ks F|d] using node_induction; intros pl H.
  - cbn. destruct (sel pl _); auto.
  - assert (E : extract sel pl (Elem x a ks) = (let '(inner, rest) := extract_list sel (Elem x a []) pl [] ks in
       if sel pl (Elem x a ks) then (Elem x a rest :: inner, []) else (inner, [Elem x a rest]))) by reflexivity.
    rewrite E. unfold tk in H. cbn [is_doc negb tidy andb] in H. apply andb_true_iff in H. destruct H as [Hc Hk].
    destruct (L ks F (Elem x a []) pl [] Hk) as [A B].
    assert (N : negb (name_in childless x) || match snd (extract_list sel (Elem x a []) pl [] ks) with [] => true | _ => false end = true).
    { clear -Hc. destruct (name_in childless x); [|reflexivity]. destruct ks; [reflexivity|discriminate Hc]. }
    destruct (extract_list sel (Elem x a []) pl [] ks) as [inner rest]. cbn [fst snd] in *.
    assert (R : tk (Elem x a rest) = true) by (unfold tk; cbn [is_doc negb tidy andb]; now rewrite N).
    destruct (sel pl _); cbn [fst snd]; rewrite ?tks_cons, ?R, ?A; auto.
  - cbn. destruct (sel pl _); auto.
  - discriminate.
  - cbn. destruct (sel pl _); auto.
Qed.
Lemma include_tidy sel ks : tidy (Doc ks) = true -> tidy (include_nodes sel (Doc ks)) = true.
Proof.
  intros H. unfold include_nodes. cbn [kids tidy]. change (tks ks = true) in H. change (tks (extract_kids sel [] (Doc ks) [] ks) = true).
  generalize (@nil node) as left. generalize (@nil (list node * node * list node)) as pl. generalize (Doc ks) as m. revert H.
  induction ks as [|k ks IH]; intros H m pl left; [reflexivity|]. rewrite tks_cons in H. apply andb_true_iff in H. destruct H as [H1 H2].
  cbn [extract_kids]. rewrite tks_app. rewrite (proj1 (extract_tk sel k _ H1)). now apply IH.
Qed.
Lemma exclude_tk sel n : forall pl, tk n = true -> tks (exclude_in sel pl n) = true.
Proof.
  assert (L : forall ks, Forall (fun n => forall pl, tk n = true -> tks (exclude_in sel pl n) = true) ks ->
    forall sh pl left, tks ks = true -> tks (exclude_list sel sh pl left ks) = true).
  { induction 1 as [|k ks Hk _ IH]; intros sh pl left H; [reflexivity|]. rewrite tks_cons in H. apply andb_true_iff in H. destruct H as [H1 H2].
    rewrite exclude_cons, tks_app, IH, Hk; auto. }
  induction n as [d|x a ks F|d|ks F|d] using node_induction; intros pl H.
  - cbn. destruct (sel pl _); auto.
  - assert (E : exclude_in sel pl (Elem x a ks) = if sel pl (Elem x a ks) then [] else [Elem x a (exclude_list sel (Elem x a []) pl [] ks)]) by reflexivity.
    rewrite E. destruct (sel pl _); [reflexivity|]. rewrite tks_cons, andb_true_r. unfold tk in H. cbn [is_doc negb tidy andb] in H. apply andb_true_iff in H. destruct H as [Hc Hk].
    unfold tk. cbn [is_doc negb tidy andb]. apply andb_true_iff. split; [|now apply L].
    clear -Hc. destruct (name_in childless x); [|reflexivity]. destruct ks; [reflexivity|discriminate Hc].
  - cbn. destruct (sel pl _); auto.
  - discriminate.
  - cbn. destruct (sel pl _); auto.
Qed.
Lemma exclude_tidy sel ks : tidy (Doc ks) = true -> tidy (exclude_nodes sel (Doc ks)) = true /\ exists ms, exclude_nodes sel (Doc ks) = Doc ms.
Proof.
  intros H. unfold exclude_nodes.
  assert (E : exclude_in sel [] (Doc ks) = if sel [] (Doc ks) then [] else [Doc (exclude_list sel (Doc []) [] [] ks)]) by reflexivity.
  rewrite E. destruct (sel [] (Doc ks)); cbn [hd]; [eauto|]. split; [|eauto]. cbn [tidy].
  change (tks ks = true) in H. change (tks (exclude_list sel (Doc []) [] [] ks) = true).
  clear E. generalize (Doc []) as sh. intros sh. generalize (@nil node) as left. revert H. induction ks as [|k ks IH]; intros H left; [reflexivity|].
  rewrite tks_cons in H. apply andb_true_iff in H. destruct H as [H1 H2]. rewrite exclude_cons, tks_app, exclude_tk, IH; auto.
Qed.
Lemma select_tidy selector matches c ks : tidy (Doc ks) = true ->
  tidy (select selector matches c (Doc ks)) = true /\ invisible (select selector matches c (Doc ks)) = false.
Proof.
  intros H. unfold select. cbv zeta.
  assert (I : exists ms, (if is_empty (c_include selector c) then Doc ks else include_nodes (any_match selector matches (c_include selector c)) (Doc ks)) = Doc ms /\ tidy (Doc ms) = true).
  { destruct (is_empty (c_include selector c)); [eauto|]. eexists. split; [reflexivity|]. now apply include_tidy. }
  destruct I as (ms & -> & T). destruct (is_empty (c_exclude selector c)); [auto|].
  destruct (exclude_tidy (any_match selector matches (c_exclude selector c)) ms T) as (T' & ms' & E). rewrite E in *. auto.
Qed.
