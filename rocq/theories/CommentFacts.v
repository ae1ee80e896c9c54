(** The exact result of AddListEndComments (C43). *)
From Coq Require Import List NArith Bool String.
From Verif Require Import Bytes Dom DomUtils RenderInv DomFacts4 BlockFacts SpecSpace SpecSpace2 SpecComments.
Import ListNotations.
Open Scope list_scope.

(** with what follows the end *)
Fixpoint lf (r : list token) (base : bool) : bool :=
  match r with
  | [] => base
  | Op e _ :: r' => a_list e || negb (divides e) && lf r' base
  | Cl e _ :: r' => negb (a_list e) && lf r' base
  | X n :: r' => negb (is_the_end n) && lf r' base
  | T _ :: _ => false
  end.
Fixpoint cm (r : list token) (base : bool) : list token :=
  match r with
  | [] => []
  | t :: r' => t :: (match t with Cl e _ => if a_list e && lf r' base then [X the_end] else [] | _ => [] end) ++ cm r' base
  end.
Lemma lf_plain r : lf r false = list_follows r.
Proof. induction r as [|[d|e k|e k|n] r IH]; cbn; try reflexivity; now rewrite IH. Qed.
Lemma cm_plain r : cm r false = commented r.
Proof. induction r as [|t r IH]; [reflexivity|]. cbn. now rewrite IH, lf_plain. Qed.
Lemma lf_app A B s : lf (A ++ B) s = lf A (lf B s).
Proof. induction A as [|[d|e k|e k|n] r IH]; cbn; try reflexivity; now rewrite IH. Qed.
Lemma cm_app A B s : cm (A ++ B) s = cm A (lf B s) ++ cm B s.
Proof. induction A as [|t r IH]; [reflexivity|]. cbn. now rewrite IH, lf_app, <- app_assoc. Qed.

Definition ngo : list node -> option bool :=
  fix go (l : list node) : option bool := match l with [] => None | k :: r => match next_list_node k with Some v => Some v | None => go r end end.
Lemma next_elem x a ks : next_list_node (Elem x a ks) = if is_list_name x then Some true else if beqb x (b "li") || beqb x (b "hr") then Some false else ngo ks.
Proof. reflexivity. Qed.
Lemma next_doc ks : next_list_node (Doc ks) = ngo ks. Proof. reflexivity. Qed.
Lemma ngo_cons k r : ngo (k :: r) = match next_list_node k with Some v => Some v | None => ngo r end. Proof. reflexivity. Qed.
Definition or_else (o : option bool) (s : bool) : bool := match o with Some v => v | None => s end.
Lemma a_list_elem x a : a_list (Elem x a []) = is_list_name x.
Proof. unfold a_list, is_list_name. cbn [named]. unfold name_in. cbn [existsb]. rewrite ?orb_false_r. reflexivity. Qed.
Lemma divides_elem x a : divides (Elem x a []) = beqb x (b "li") || beqb x (b "hr").
Proof. unfold divides. cbn [named]. unfold name_in. cbn [existsb]. now rewrite orb_false_r. Qed.
Lemma lf_ngo ks : Forall (fun n => forall s, lf (tokens n) s = or_else (next_list_node n) s) ks -> forall s, lf (flat_map tokens ks) s = or_else (ngo ks) s.
Proof.
  induction 1 as [|k r Hk _ IH]; intros s; [reflexivity|]. cbn [flat_map]. rewrite lf_app, Hk, ngo_cons, IH. destruct (next_list_node k); reflexivity.
Qed.
Lemma lf_node n : forall s, lf (tokens n) s = or_else (next_list_node n) s.
Proof.
  induction n as [d|x a ks IH|d|ks IH|d] using node_induction; intros s.
  - reflexivity.
  - rewrite next_elem. cbn [tokens lf]. rewrite a_list_elem, divides_elem. destruct (is_list_name x) eqn:E; [reflexivity|]. cbn [orb].
    destruct (beqb x (b "li") || beqb x (b "hr")); [reflexivity|]. cbn [negb andb]. rewrite lf_app. cbn [lf]. rewrite a_list_elem, E. cbn [negb andb]. apply lf_ngo, IH.
  - cbn [tokens lf next_list_node is_the_end]. unfold end_comment_data. destruct (beqb d (b "THE END")); reflexivity.
  - rewrite next_doc. cbn [tokens lf]. change (a_list (Doc [])) with false. change (divides (Doc [])) with false. cbn [orb negb andb]. rewrite lf_app. cbn [lf].
    change (a_list (Doc [])) with false. cbn [negb andb]. apply lf_ngo, IH.
  - reflexivity.
Qed.
Lemma lf_list ks s : lf (flat_map tokens ks) s = or_else (next_list ks) s.
Proof.
  induction ks as [|k r IH]; [reflexivity|]. cbn [flat_map next_list]. rewrite lf_app, lf_node, IH. destruct (next_list_node k); reflexivity.
Qed.

Definition cgo (st : list (list node)) : list node -> list node :=
  fix go (l : list node) : list node := match l with [] => [] | k :: r => list_end_comments (r :: st) k ++ go r end.
Lemma cgo_cons st k r : cgo st (k :: r) = list_end_comments (r :: st) k ++ cgo st r. Proof. reflexivity. Qed.
Definition marked (st : list (list node)) (mark : bool) : list (list node) :=
  if mark then match st with l :: up => (Comment end_comment_data :: l) :: up | [] => [] end else st.
Lemma comments_elem st x a ks : list_end_comments st (Elem x a ks) =
  Elem x a (cgo (marked st (is_list_name x && next_list_stack st)) ks) :: (if is_list_name x && next_list_stack st then [Comment end_comment_data] else []).
Proof. reflexivity. Qed.
Lemma comments_doc st ks : list_end_comments st (Doc ks) = [Doc (cgo st ks)]. Proof. reflexivity. Qed.
Definition none (ks : list node) : bool := match ks with [] => true | _ => false end.
Lemma cgo_none st ks : none (cgo st ks) = none ks.
Proof. destruct ks as [|k r]; [reflexivity|]. rewrite cgo_cons. destruct k; reflexivity. Qed.
Lemma marked_next st x : next_list_stack (marked st (is_list_name x && next_list_stack st)) = negb (is_list_name x) && next_list_stack st.
Proof.
  destruct (is_list_name x); cbn [andb negb marked]; [|reflexivity]. destruct (next_list_stack st) eqn:E; [|exact E].
  destruct st as [|k up]; [discriminate|]. reflexivity.
Qed.
Lemma cgo_cm ks : Forall (fun n => forall st, flat_map tokens (list_end_comments st n) = cm (tokens n) (next_list_stack st)) ks ->
  forall st, flat_map tokens (cgo st ks) = cm (flat_map tokens ks) (next_list_stack st).
Proof.
  induction 1 as [|k r Hk _ IH]; intros st; [reflexivity|]. rewrite cgo_cons, flat_map_app, Hk, IH. cbn [flat_map]. rewrite cm_app, lf_list. reflexivity.
Qed.
Lemma comments_cm n : forall st, flat_map tokens (list_end_comments st n) = cm (tokens n) (next_list_stack st).
Proof.
  induction n as [d|x a ks IH|d|ks IH|d] using node_induction; intros st; try reflexivity.
  - rewrite comments_elem. cbn [flat_map tokens]. fold (none (cgo (marked st (is_list_name x && next_list_stack st)) ks)). fold (none ks). rewrite cgo_none, (cgo_cm ks IH), marked_next.
    cbn [cm app]. rewrite cm_app. cbn [lf cm]. rewrite a_list_elem, app_nil_r, <- !app_assoc. f_equal. f_equal. cbn [app].
    destruct (is_list_name x && next_list_stack st); reflexivity.
  - rewrite comments_doc. cbn [flat_map tokens]. fold (none (cgo st ks)). fold (none ks). rewrite cgo_none, (cgo_cm ks IH), app_nil_r.
    cbn [cm app]. rewrite cm_app. cbn [lf cm]. change (a_list (Doc [])) with false. cbn [negb andb app]. reflexivity.
Qed.
Lemma comments_root n : list_end_comments [] n = [add_list_end_comments n].
Proof. unfold add_list_end_comments. destruct n; try reflexivity. rewrite comments_elem. cbn [next_list_stack]. now rewrite andb_false_r. Qed.
Lemma comments_exact n : tokens (add_list_end_comments n) = commented (tokens n).
Proof. rewrite <- cm_plain. change false with (next_list_stack []). rewrite <- comments_cm, comments_root. cbn. now rewrite app_nil_r. Qed.
