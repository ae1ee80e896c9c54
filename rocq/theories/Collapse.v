(** Model of collapse/collapse.go and collapse/is_node.go. No proofs in this file. *)
From Coq Require Import List NArith Bool String.
From Verif Require Import Bytes TextUtils Dom.
Import ListNotations.
Open Scope N_scope.
Open Scope list_scope.

(** collapse/is_node.go:12-15  voidElements *)
Definition void_names : list bytes := map b
  ["area"; "base"; "br"; "col"; "command"; "embed"; "hr"; "img"; "input"; "keygen"; "link"; "meta"; "param"; "track"; "wbr"]%string.
(** collapse/is_node.go:37-43  defaultIsPreformattedNode *)
Definition is_preformatted (name : bytes) : bool := beqb name (b "pre") || beqb name (b "code").

(** What an element does to the state of the walk (collapse/collapse.go:131-146). *)
Inductive effect := EBlock | EKeep | EInline.
Definition effect_of (is_block : bytes -> bool) (name : bytes) : effect :=
  if is_block name || beqb name (b "br") then EBlock
  else if name_in void_names name || is_preformatted name || beqb name (b "code") then EKeep
  else EInline.

(** First half of the walk, left to right. State: prevText (None = nil, Some e: its data ends with a space iff e) and
    keepLeadingWs. Go visits an element before and after its children (a preformatted one once); a visit is idempotent. *)
Definition cstate := (option bool * bool)%type.
Definition visit (e : effect) (s : cstate) : cstate :=
  match e with
  | EBlock => (None, false)
  | EKeep => (None, true)
  | EInline => match fst s with Some _ => (fst s, false) | None => s end
  end.
(** collapse/collapse.go:114-130: the new text, None = the node is removed *)
Definition lead_text (s : cstate) (d : bytes) : option bytes :=
  let t := collapse_ws d in
  let t := match t with
           | c :: r => if (match fst s with None => true | Some e => e end) && negb (snd s) && (c =? cSP) then r else t
           | [] => t
           end in
  if is_empty t then None else Some t.
Section walk.
Variable is_block : bytes -> bool.
Fixpoint lead (s : cstate) (n : node) : cstate * list node :=
  match n with
  | Text d =>
      match lead_text s d with
      | None => (s, [])
      | Some t => ((Some (has_suffix [cSP] t), snd s), [Text t])
      end
  | Elem x a ks =>
      let s1 := visit (effect_of is_block x) s in
      if is_preformatted x then (s1, [n])
      else
        let '(s2, ks') :=
          (fix go (s : cstate) (l : list node) : cstate * list node :=
             match l with
             | [] => (s, [])
             | k :: r => let '(s1, k') := lead s k in let '(s2, r') := go s1 r in (s2, k' ++ r')
             end) s1 ks in
        (visit (effect_of is_block x) s2, [Elem x a ks'])
  | Comment _ => (s, [n])
  | Doc _ | Other _ => (s, [])                    (* removed: neither text, element nor comment *)
  end.
Fixpoint lead_list (s : cstate) (l : list node) : cstate * list node :=
  match l with
  | [] => (s, [])
  | k :: r => let '(s1, k') := lead s k in let '(s2, r') := lead_list s1 r in (s2, k' ++ r')
  end.

(** collapse/collapse.go:132-134 and 163-168: TrimSuffix of prevText. Seen from the right: [tr] says that the next text met
    is prevText when a block (or the end) is reached. *)
Definition visit_back (e : effect) (tr : bool) : bool :=
  match e with EBlock => true | EKeep => false | EInline => tr end.
Definition trim_suffix_space (d : bytes) : bytes := if has_suffix [cSP] d then removelast d else d.
Fixpoint trail (tr : bool) (n : node) : bool * node :=
  match n with
  | Text d => (false, Text (if tr then trim_suffix_space d else d))
  | Elem x a ks =>
      let tr1 := visit_back (effect_of is_block x) tr in
      if is_preformatted x then (tr1, n)
      else
        let '(tr2, ks') :=
          (fix go (l : list node) : bool * list node :=
             match l with
             | [] => (tr1, [])
             | k :: r => let '(t1, r') := go r in let '(t2, k') := trail t1 k in (t2, k' :: r')
             end) ks in
        (visit_back (effect_of is_block x) tr2, Elem x a ks')
  | _ => (tr, n)
  end.
Fixpoint trail_list (tr : bool) (l : list node) : bool * list node :=
  match l with
  | [] => (tr, [])
  | k :: r => let '(t1, r') := trail_list tr r in let '(t2, k') := trail t1 k in (t2, k' :: r')
  end.

(** collapse/collapse.go:163-168: the very last text is removed when the trimming made it empty. [found] says that the last
    text was met; elements of effect EBlock and EKeep reset prevText, so the search stops there. *)
Fixpoint drop_last (n : node) : bool * list node :=
  match n with
  | Text d => (true, if is_empty d then [] else [n])
  | Elem x a ks =>
      match effect_of is_block x with
      | EInline =>
          let '(f, ks') :=
            (fix go (l : list node) : bool * list node :=
               match l with
               | [] => (false, [])
               | k :: r => let '(f, r') := go r in
                           if f : bool then (true, k :: r') else let '(f2, k') := drop_last k in (f2, k' ++ r')
               end) ks in
          (f, [Elem x a ks'])
      | _ => (true, [n])
      end
  | _ => (false, [n])
  end.
Fixpoint drop_last_list (l : list node) : bool * list node :=
  match l with
  | [] => (false, [])
  | k :: r => let '(f, r') := drop_last_list r in
              if f : bool then (true, k :: r') else let '(f2, k') := drop_last k in (f2, k' ++ r')
  end.

(** collapse/collapse.go:103-174  Collapse *)
Definition collapse_kids (ks : list node) : list node :=
  let ks1 := snd (lead_list (None, false) ks) in
  let ks2 := snd (trail_list true ks1) in
  snd (drop_last_list ks2).
Definition collapse (root : node) : node :=
  match kids root with
  | [] => root
  | ks => if is_preformatted (node_name root) then root else with_kids root (collapse_kids ks)
  end.
End walk.
