(** White space around emphasis that starts or ends with code: specification for C73. *)
From Coq Require Import List NArith Bool String.
From Verif Require Import Bytes Dom.
Import ListNotations.
Open Scope list_scope.

Definition total {A} (f : A -> nat) (l : list A) : nat := fold_right (fun x s => f x + s)%nat O l.
(** The bytes of all texts of a tree *)
Fixpoint text_bytes (n : node) : nat :=
  match n with Text d => List.length d | Elem _ _ ks | Doc ks => total text_bytes ks | _ => O end.
(** The elements of a tree with one of the names [l] *)
Fixpoint count_named (l : list bytes) (n : node) : nat :=
  match n with
  | Elem x _ ks => (if name_in l x then 1 else 0) + total (count_named l) ks
  | Doc ks => total (count_named l) ks
  | _ => O
  end.

(** Emphasis named [l] that starts or ends with code named [m] *)
Definition starts_with (m : list bytes) (e : node) : bool := match kids e with k :: _ => named m k | [] => false end.
Definition ends_with (m : list bytes) (e : node) : bool := match rev (kids e) with k :: _ => named m k | [] => false end.
Definition not_span (n : node) : bool := negb (named [b "span"] n).
Section spaced.
Variables (l m : list bytes).
(** A text gets a space at its end if the next sibling is emphasis that starts with code, and one at its start if the previous
    sibling is emphasis that ends with code ([before]). *)
Definition code_next (r : list node) : bool := match r with e :: _ => named l e && starts_with m e | [] => false end.
Definition blank (needed : bool) : bytes := if needed then [32%N] else [].
Fixpoint spaced (n : node) : node :=
  let fix go (before : bool) (ks : list node) : list node :=
    match ks with
    | [] => []
    | k :: r => (match k with Text d => Text (blank before ++ d ++ blank (code_next r)) | _ => spaced k end)
                :: go (named l k && ends_with m k) r
    end in
  match n with Elem x a ks => Elem x a (go false ks) | Doc ks => Doc (go false ks) | _ => n end.
(** Spans do not hide what is next to emphasis: its first and last child are no spans; if it starts with code there is a sibling
    before it that is no span, if it ends with code there is one after it. *)
Definition edges (e : node) : bool :=
  match kids e, rev (kids e) with k1 :: _, k2 :: _ => not_span k1 && not_span k2 | _, _ => true end.
Definition before_ok (prev : option node) : bool := match prev with Some p => not_span p | None => false end.
Fixpoint spans_apart (n : node) : bool :=
  let fix go (prev : option node) (ks : list node) : bool :=
    match ks with
    | [] => true
    | k :: r => (negb (named l k) ||
                 edges k && (negb (starts_with m k) || before_ok prev) && (negb (ends_with m k) || before_ok (hd_error r)))
                && spans_apart k && go (Some k) r
    end in
  match n with Elem _ _ ks | Doc ks => go None ks | _ => true end.
End spaced.
