(** Specification of the resolution of addresses against the domain (C65), after RFC 3986 section 5, written without the model.
    No proofs in this file. *)
From Coq Require Import List NArith Bool String.
From Verif Require Import Bytes.
Import ListNotations.
Open Scope N_scope.
Open Scope list_scope.

(** Unreserved characters *)
Definition unreserved (c : N) : bool :=
  (48 <=? c) && (c <=? 57) || (65 <=? c) && (c <=? 90) || (97 <=? c) && (c <=? 122) || existsb (N.eqb c) [45; 46; 95; 126].
(** A path of unreserved characters and slashes, without empty segments in it *)
Fixpoint no_double_slash (p : bytes) : bool :=
  match p with
  | c :: t => negb ((c =? 47) && match t with d :: _ => d =? 47 | [] => false end) && no_double_slash t
  | [] => true
  end.
Definition simple_path (p : bytes) : bool := forallb (fun c => unreserved c || (c =? 47)) p && no_double_slash p.
Definition from_root (p : bytes) : bool := match p with c :: _ => c =? 47 | [] => true end.
(** A host, with or without a port *)
Definition simple_host (h : bytes) : Prop := exists name port, h = name ++ port /\ name <> [] /\ forallb unreserved name = true
  /\ (port = [] \/ exists ds, port = 58 :: ds /\ forallb (fun c => (48 <=? c) && (c <=? 57)) ds = true).
(** A scheme: letters, digits, plus, minus and dot, a letter first; it is written in small letters *)
Definition letter (c : N) : bool := (65 <=? c) && (c <=? 90) || (97 <=? c) && (c <=? 122).
Definition simple_scheme (s : bytes) : bool :=
  match s with c :: t => letter c && forallb (fun d => letter d || (48 <=? d) && (d <=? 57) || existsb (N.eqb d) [43; 45; 46]) t | [] => false end.
Definition lowered (s : bytes) : bytes := map (fun c => if (65 <=? c) && (c <=? 90) then c + 32 else c) s.
(** The domain: with a scheme, or without one, which means http *)
Inductive domain_is : bytes -> bytes -> bytes -> bytes -> Prop :=
| domain_full sc h p : simple_scheme sc = true -> simple_host h -> simple_path p = true -> from_root p = true ->
    domain_is (sc ++ b "://" ++ h ++ p) (lowered sc) h p
| domain_bare h p : simple_host h -> simple_path p = true -> from_root p = true -> domain_is (h ++ p) (b "http") h p.
(** Query and fragment *)
Definition tail_of (s : bytes) : Prop := match s with [] => True | c :: _ => c = 63 \/ c = 35 end.

(** Resolving paths: dots and double dots are removed from the segments. *)
Fixpoint walk (up : list bytes) (todo : list bytes) : list bytes :=
  match todo with
  | [] => rev up
  | s :: r =>
      if beqb s (b "..") then match r with [] => rev ([] :: tl up) | _ => walk (tl up) r end
      else if beqb s (b ".") then match r with [] => rev ([] :: up) | _ => walk up r end
      else walk (s :: up) r
  end.
Definition without_dots (p : bytes) : bytes := match p with [] => [] | _ :: t => 47 :: join [47] (walk [] (split_on 47 t)) end.
(** The directory of a path: up to its last slash *)
Definition directory (p : bytes) : bytes :=
  match p with [] => [47] | _ => rev ((fix go (s : bytes) : bytes := match s with c :: t => if c =? 47 then s else go t | [] => [] end) (rev p)) end.
Definition resolved (base ref : bytes) : bytes :=
  without_dots (match ref with [] => base | c :: _ => if c =? 47 then ref else directory base ++ ref end).
(** A query and a fragment in visible ASCII characters; a percent sign stands before two hex digits *)
Definition hexit (c : N) : bool := (48 <=? c) && (c <=? 57) || (65 <=? c) && (c <=? 70) || (97 <=? c) && (c <=? 102).
Fixpoint percents_ok (s : bytes) : bool :=
  match s with
  | [] => true
  | c :: t => (if c =? 37 then match t with x :: y :: _ => hexit x && hexit y | _ => false end else true) && percents_ok t
  end.
Definition good_tail (t : bytes) : Prop := tail_of t /\ (forall c, In c t -> 33 <= c < 127) /\ percents_ok t = true.
