(** Model of internal/domutils/*.go. No proofs in this file.

    A pass that walks the tree with dom.GetNextNeighborNode looks at what follows a node: first its following siblings, then
    those of its parent, and so on. The model passes these as a stack of sibling lists, innermost first. *)
From Coq Require Import List NArith Bool String.
From Verif Require Import Bytes TextUtils Dom.
Import ListNotations.
Open Scope N_scope.
Open Scope list_scope.

Definition is_span (n : node) : bool := named [b "span"] n.

(** internal/domutils/adjacent.go:57-75  MergeAdjacentTextNodes; the already merged siblings are kept in reverse order *)
Definition push_text (n : node) (rev_done : list node) : list node :=
  match n, rev_done with
  | Text d, Text p :: rest => Text (p ++ d) :: rest
  | _, _ => n :: rev_done
  end.
Fixpoint merge_text (n : node) : node :=
  match n with
  | Elem x a ks => Elem x a (rev (fold_left (fun acc k => push_text (merge_text k) acc) ks []))
  | Doc ks => Doc (rev (fold_left (fun acc k => push_text (merge_text k) acc) ks []))
  | _ => n
  end.

(** plugin/base/base.go:60-77  the finder of preRenderRemove ([rm] = the tag type is TagTypeRemove). The root itself stays:
    dom.RemoveNode does nothing without a parent, and then the function returns without looking at the children. *)
Fixpoint remove_in (rm : bytes -> bool) (n : node) : node :=
  match n with
  | Elem x a ks => Elem x a (flat_map (fun k => if rm (node_name k) then [] else [remove_in rm k]) ks)
  | Doc ks => Doc (flat_map (fun k => if rm (node_name k) then [] else [remove_in rm k]) ks)
  | _ => n
  end.
Definition remove_root (rm : bytes -> bool) (n : node) : node := if rm (node_name n) then n else remove_in rm n.

(** internal/domutils/span.go:18-32 *)
Fixpoint contains_block (n : node) : bool :=
  is_block_name (node_name n) || match n with Elem _ _ ks | Doc ks => existsb contains_block ks | _ => false end.
(** internal/domutils/span.go:37-50  RenameFakeSpans. Go renames from the outside in; a span is judged by its own subtree,
    and renaming another span to div changes that only if that subtree contains a block anyway. *)
Fixpoint rename_fake_spans (n : node) : node :=
  match n with
  | Elem x a ks =>
      Elem (if beqb x (b "span") && contains_block n then b "div" else x) a (map rename_fake_spans ks)
  | Doc ks => Doc (map rename_fake_spans ks)
  | _ => n
  end.

(** internal/domutils/redundant.go:8-29  RemoveRedundant. [cls] gives the class of a name (matchFn a b holds when both have
    the same class); [anc] are the classes of the ancestors. An ancestor that was itself unwrapped had an ancestor of the
    same class, so the original ancestors can be used. The result replaces the node among its siblings. *)
Fixpoint redundant (cls : bytes -> option N) (anc : list N) (n : node) : list node :=
  match n with
  | Elem x a ks =>
      match cls x with
      | None => [Elem x a (flat_map (redundant cls anc) ks)]
      | Some c =>
          if existsb (N.eqb c) anc then flat_map (redundant cls anc) ks
          else [Elem x a (flat_map (redundant cls (c :: anc)) ks)]
      end
  | Doc ks => [Doc (flat_map (redundant cls anc) ks)]
  | _ => [n]
  end.
Definition remove_redundant (cls : bytes -> option N) (n : node) : node := hd n (redundant cls [] n).

(** internal/domutils/adjacent.go:8-27 and 29-39  collectAdjacentNodes and mergeChildren on one node, on a list of siblings
    and on a stack: the children of the collected nodes, what is left, and whether the walk goes on behind it. *)
Fixpoint collect_node (mt : node -> bool) (n : node) : list node * list node * bool :=
  match n with
  | Elem x a ks =>
      if is_span n then
        let '(c, ks', go) :=
          (fix coll (l : list node) : list node * list node * bool :=
             match l with
             | [] => ([], [], true)
             | k :: r => let '(c, k', go) := collect_node mt k in
                         if go : bool then let '(c2, r', go2) := coll r in (c ++ c2, k' ++ r', go2)
                         else (c, k' ++ r, false)
             end) ks in
        (c, [Elem x a ks'], go)
      else if mt n then (ks, [], true) else ([], [n], false)
  | _ => ([], [n], false)
  end.
Fixpoint collect_list (mt : node -> bool) (l : list node) : list node * list node * bool :=
  match l with
  | [] => ([], [], true)
  | k :: r => let '(c, k', go) := collect_node mt k in
              if go : bool then let '(c2, r', go2) := collect_list mt r in (c ++ c2, k' ++ r', go2)
              else (c, k' ++ r, false)
  end.
Fixpoint collect_stack (mt : node -> bool) (st : list (list node)) : list node * list (list node) :=
  match st with
  | [] => ([], [])
  | l :: up => let '(c, l', go) := collect_list mt l in
               if go : bool then let '(c2, up') := collect_stack mt up in (c ++ c2, l' :: up')
               else (c, l' :: up)
  end.
(** The walk starts with node.NextSibling: without a following sibling nothing is collected. *)
Definition collect_adjacent (mt : node -> bool) (st : list (list node)) : list node * list (list node) :=
  match st with
  | (_ :: _) :: _ => collect_stack mt st
  | _ => ([], st)
  end.
(** internal/domutils/adjacent.go:41-53  MergeAdjacent. A node and the stack behind it; [fuel] bounds the recursion
    (DomFacts: the size of the tree is enough). *)
Fixpoint merge_adj (mt : node -> bool) (fuel : nat) (n : node) (st : list (list node)) : node * list (list node) :=
  match fuel with
  | O => (n, st)
  | S f =>
      let '(c, st1) := if mt n then collect_adjacent mt st else ([], st) in
      let '(ks, st2) := merge_adj_list mt f (kids n ++ c) st1 in
      (with_kids n ks, st2)
  end
with merge_adj_list (mt : node -> bool) (fuel : nat) (l : list node) (st : list (list node)) : list node * list (list node) :=
  match fuel with
  | O => (l, st)
  | S f =>
      match l with
      | [] => ([], st)
      | x :: r =>
          let '(x', st1) := merge_adj mt f x (r :: st) in
          let '(r', st2) := merge_adj_list mt f (hd [] st1) (tl st1) in
          (x' :: r', st2)
      end
  end.
Definition merge_fuel (n : node) : nat := (2 * size n + 1)%nat.
Definition merge_adjacent (mt : node -> bool) (n : node) : node := fst (merge_adj mt (merge_fuel n) n []).

(** internal/domutils/empty_code.go:10-26  hasTextChildNodes *)
Fixpoint has_text (n : node) : bool :=
  match n with
  | Text d => negb (is_empty d)
  | Elem _ _ ks | Doc ks => existsb has_text ks
  | _ => false
  end.
(** internal/domutils/empty_code.go:28-42  RemoveEmptyCode *)
Definition is_empty_code (n : node) : bool := named [b "code"] n && negb (has_text n).
Fixpoint remove_empty_code (n : node) : node :=
  match n with
  | Elem x a ks =>
      if is_empty_code n then n     (* only possible for the root, which cannot be removed *)
      else Elem x a (flat_map (fun k => if is_empty_code k then [] else [remove_empty_code k]) ks)
  | Doc ks => Doc (flat_map (fun k => if is_empty_code k then [] else [remove_empty_code k]) ks)
  | _ => n
  end.

(** internal/domutils/swap.go:30-32  isEmptyText *)
Definition is_blank_text (n : node) : bool := match n with Text d => is_empty (trim_space d) | _ => false end.
(** internal/domutils/swap.go:33-51  SwapTags: the only non-blank child gives its tag and attributes to the node *)
Definition retag (x : bytes) (a : attrs) (n : node) : node := match n with Elem _ _ ks => Elem x a ks | _ => n end.
Fixpoint swap_tags (outer inner : node -> bool) (n : node) : node :=
  match n with
  | Elem x a ks =>
      match outer n, filter (fun k => negb (is_blank_text k)) ks with
      | true, [Elem y c gs] =>
          if inner (Elem y c gs) then Elem y c (map (fun k => if is_blank_text k then k else retag x a k) ks)
          else Elem x a (map (swap_tags outer inner) ks)
      | _, _ => Elem x a (map (swap_tags outer inner) ks)
      end
  | Doc ks => Doc (map (swap_tags outer inner) ks)
  | _ => n
  end.

(** internal/domutils/add_space.go:10-42: the first node in document order that is not a span ([fwd] true: getFirstChildNode,
    from the front; false: getLastChildNode, from the back). The lists of the stack are in walking order. *)
Fixpoint first_real (fwd : bool) (n : node) : option node :=
  match n with
  | Elem _ _ ks =>
      if is_span n then
        (fix go (l : list node) : option node :=
           match l with
           | [] => None
           | k :: r => if fwd then match first_real fwd k with Some x => Some x | None => go r end
                       else match go r with Some x => Some x | None => first_real fwd k end
           end) ks
      else Some n
  | _ => Some n
  end.
Fixpoint first_real_list (fwd : bool) (l : list node) : option node :=
  match l with
  | [] => None
  | k :: r => match first_real fwd k with Some x => Some x | None => first_real_list fwd r end
  end.
Fixpoint first_real_stack (fwd : bool) (st : list (list node)) : option node :=
  match st with
  | [] => None
  | l :: up => match first_real_list fwd l with Some x => Some x | None => first_real_stack fwd up end
  end.
(** internal/domutils/domutils.go:8-43  getNextTextNode / getPrevTextNode together with the change of the text: the first
    node that is not a span is changed if it is a text. The flag says that such a node was met. *)
Fixpoint touch (fwd : bool) (n : node) : node * bool :=
  match n with
  | Text d => (Text (if fwd then cSP :: d else d ++ [cSP]), true)
  | Elem x a ks =>
      if is_span n then
        let '(ks', f) :=
          (fix go (l : list node) : list node * bool :=
             match l with
             | [] => ([], false)
             | k :: r => if fwd then let '(k', f) := touch fwd k in
                                     if f : bool then (k' :: r, true) else let '(r', f2) := go r in (k' :: r', f2)
                         else let '(r', f) := go r in
                              if f : bool then (k :: r', true) else let '(k', f2) := touch fwd k in (k' :: r', f2)
             end) ks in
        (Elem x a ks', f)
      else (n, true)
  | _ => (n, true)
  end.
Fixpoint touch_list (fwd : bool) (l : list node) : list node * bool :=
  match l with
  | [] => ([], false)
  | k :: r => let '(k', f) := touch fwd k in
              if f : bool then (k' :: r, true) else let '(r', f2) := touch_list fwd r in (k' :: r', f2)
  end.
Fixpoint touch_stack (fwd : bool) (st : list (list node)) : list (list node) :=
  match st with
  | [] => []
  | l :: up => let '(l', f) := touch_list fwd l in
               if f : bool then l' :: up else l' :: touch_stack fwd up
  end.
(** internal/domutils/add_space.go:43-66  AddSpace; [lt] are the preceding siblings of the node and of its ancestors (nearest
    first), [rt] the following ones. *)
Definition opt_is (p : node -> bool) (o : option node) : bool := match o with Some x => p x | None => false end.
Fixpoint add_space (outer inner : node -> bool) (fuel : nat) (n : node) (lt rt : list (list node))
  : node * list (list node) * list (list node) :=
  match fuel with
  | O => (n, lt, rt)
  | S f =>
      let lt1 := if outer n && negb (is_empty (kids n)) && opt_is inner (first_real_stack true (kids n :: rt))
                 then touch_stack false lt else lt in
      let rt1 := if outer n && negb (is_empty (kids n)) && opt_is inner (first_real_stack false (rev (kids n) :: lt1))
                 then touch_stack true rt else rt in
      let '(ks, lt2, rt2) := add_space_list outer inner f [] (kids n) lt1 rt1 in
      (with_kids n ks, lt2, rt2)
  end
with add_space_list (outer inner : node -> bool) (fuel : nat) (done todo : list node) (lt rt : list (list node))
  : list node * list (list node) * list (list node) :=
  match fuel with
  | O => (rev done ++ todo, lt, rt)
  | S f =>
      match todo with
      | [] => (rev done, lt, rt)
      | x :: r =>
          let '(x', lt1, rt1) := add_space outer inner f x (done :: lt) (r :: rt) in
          add_space_list outer inner f (x' :: hd [] lt1) (hd [] rt1) (tl lt1) (tl rt1)
      end
  end.
Definition add_space_root (outer inner : node -> bool) (n : node) : node :=
  fst (fst (add_space outer inner (merge_fuel n) n [] [])).

(** internal/domutils/alternatives.go:11-38  getMarkdownStructure *)
Definition is_container (name : bytes) : bool :=
  name_in (map b ["#document"; "html"; "head"; "body"; "blockquote"; "ul"; "ol"; "li"]%string) name.
Definition is_leaf_block (name : bytes) : bool :=
  name_in (map b ["hr"; "pre"; "h1"; "h2"; "h3"; "h4"; "h5"; "h6"]%string) name.
Definition is_inline_name (name : bytes) : bool :=
  name_in (map b ["#text"; "span"; "code"; "b"; "strong"; "i"; "em"; "a"; "img"; "br"]%string) name.
Definition is_heading_name (name : bytes) : bool := name_in (map b ["h1"; "h2"; "h3"; "h4"; "h5"; "h6"]%string) name.
(** internal/domutils/alternatives.go:40-76: what replaces an element that cannot stand where it is *)
Definition alternative (x : bytes) (a : attrs) (ks : list node) : list node :=
  if is_heading_name x then [Elem (b "strong") a ks; Elem (b "br") [] []]
  else if beqb x (b "blockquote") then [Text [32; 34]; Elem (b "span") a ks; Text [34; 32]]
  else if beqb x (b "pre") then [Elem (b "code") a ks]
  else if beqb x (b "hr") then []
  else [Elem (b "span") a ks].
(** internal/domutils/alternatives.go:78-114  LeafBlockAlternatives. Go handles the children in reverse order (defer); every
    replacement only concerns the element itself, so the order does not matter. *)
Fixpoint leaf_alternatives (leaf inl : bool) (n : node) : list node :=
  match n with
  | Elem x a ks =>
      let leaf' := leaf || is_leaf_block x in
      let inl' := inl || is_inline_name x in
      let ks' := flat_map (leaf_alternatives leaf' inl') ks in
      if (is_container x || is_leaf_block x) && (leaf || inl) then alternative x a ks' else [Elem x a ks']
  | Doc ks => [Doc (flat_map (leaf_alternatives leaf inl) ks)]
  | _ => [n]
  end.
Definition leaf_block_alternatives (n : node) : node := hd n (leaf_alternatives false false n).

(** internal/domutils/list_items.go:15-47  the regrouping of the children; [done]: the result so far, reversed *)
Definition add_kid (li k : node) : node := with_kids li (kids li ++ [k]).
(** Appends [k] to the last li of [done] (reversed list: the first li). None: there is no li yet. *)
Fixpoint add_to_li (k : node) (done : list node) : option (list node) :=
  match done with
  | [] => None
  | x :: r => if named [b "li"] x then Some (add_kid x k :: r) else option_map (cons x) (add_to_li k r)
  end.
Definition regroup_step (done : list node) (k : node) : list node :=
  if named [b "li"] k || is_blank_text k then k :: done
  else match add_to_li k done with
       | Some done' => done'
       | None => Elem (b "li") [] [k] :: done
       end.
Definition regroup (ks : list node) : list node := rev (fold_left regroup_step ks []).
Definition is_list_name (x : bytes) : bool := beqb x (b "ul") || beqb x (b "ol").
(** internal/domutils/list_items.go:13-53  MoveListItems. Go regroups first and then visits the new children; visiting a
    child does not change its name, so the model visits the children first. *)
Fixpoint move_list_items (n : node) : node :=
  match n with
  | Elem x a ks =>
      let ks' := map move_list_items ks in
      Elem x a (if is_list_name x then regroup ks' else ks')
  | Doc ks => Doc (map move_list_items ks)
  | _ => n
  end.

(** internal/domutils/list_end_comment.go:10 *)
Definition end_comment_data : bytes := b "THE END".
(** internal/domutils/list_end_comment.go:36-74  nextNameIsList on one node: Some = decided, None = walk on *)
Fixpoint next_list_node (n : node) : option bool :=
  match n with
  | Text _ => Some false
  | Comment d => if beqb d end_comment_data then Some false else None
  | Elem x _ ks =>
      if is_list_name x then Some true
      else if beqb x (b "li") || beqb x (b "hr") then Some false
      else (fix go (l : list node) : option bool :=
              match l with [] => None | k :: r => match next_list_node k with Some v => Some v | None => go r end end) ks
  | Doc ks =>
      (fix go (l : list node) : option bool :=
         match l with [] => None | k :: r => match next_list_node k with Some v => Some v | None => go r end end) ks
  | Other _ => None
  end.
Fixpoint next_list (l : list node) : option bool :=
  match l with [] => None | k :: r => match next_list_node k with Some v => Some v | None => next_list r end end.
Fixpoint next_list_stack (st : list (list node)) : bool :=
  match st with
  | [] => false
  | l :: up => match next_list l with Some v => v | None => next_list_stack up end
  end.
(** internal/domutils/list_end_comment.go:12-34  AddListEndComments. The result replaces the node; a comment is put directly
    behind a list, and the walk then goes on inside the list with that comment in front of what follows. *)
Fixpoint list_end_comments (st : list (list node)) (n : node) : list node :=
  match n with
  | Elem x a ks =>
      let mark := is_list_name x && next_list_stack st in
      let st' := if mark then match st with l :: up => (Comment end_comment_data :: l) :: up | [] => [] end else st in
      let ks' := (fix go (l : list node) : list node :=
                    match l with [] => [] | k :: r => list_end_comments (r :: st') k ++ go r end) ks in
      Elem x a ks' :: (if mark then [Comment end_comment_data] else [])
  | Doc ks =>
      [Doc ((fix go (l : list node) : list node :=
               match l with [] => [] | k :: r => list_end_comments (r :: st) k ++ go r end) ks)]
  | _ => [n]
  end.
Definition add_list_end_comments (n : node) : node := hd n (list_end_comments [] n).
