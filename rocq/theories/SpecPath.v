(** Specification of paths and fragments of addresses (C74), written without the model. No proofs in this file. *)
From Coq Require Import List NArith Bool String.
From Verif Require Import Bytes SpecUrl SpecDomain.
Import ListNotations.
Open Scope N_scope.
Open Scope list_scope.

(** Two texts that stand for the same characters *)
Definition same_spelling (x y : bytes) : Prop := exists t, spells x t /\ spells y t.
(** A path of any characters, spaces, brackets and bytes of UTF-8 included; percent signs stand before two hex digits. *)
Definition any_path (p : bytes) : Prop := (forall c, In c p -> 32 <= c < 256 /\ c <> 127 /\ c <> 35 /\ c <> 63) /\ percents_ok p = true.
(** Query and fragment of any characters; only the fragment must have proper percent triples. *)
Definition any_tail (t : bytes) : Prop := tail_of t /\ (forall c, In c t -> 32 <= c < 256 /\ c <> 127) /\ percents_ok (after 35 t) = true.
(** What stands before the path: nothing, a host, or a scheme with a host; and how it is written afterwards. *)
Inductive front : bytes -> bytes -> Prop :=
| front_none : front [] []
| front_host h : simple_host h -> front (b "//" ++ h) (b "//" ++ h)
| front_full s h : simple_scheme s = true -> lowered s <> b "data" -> simple_host h -> front (s ++ b "://" ++ h) (lowered s ++ b "://" ++ h).
(** A path that cannot be taken for a scheme or a host *)
Definition alone (p : bytes) : Prop := ~ In 58 (before 47 p) /\ ~ (exists r, p = 47 :: 47 :: r).
(** No white space around it *)
Definition visible (c : N) : Prop := 33 <= c < 127.
Definition visible_ends (s : bytes) : Prop := (forall c t, s = c :: t -> visible c) /\ (forall c t, s = t ++ [c] -> visible c).
(** A text of characters that need no encoding: letters, digits, the marks allowed in paths, slashes and percent triples *)
Definition clear_text (s : bytes) : Prop := forall c, In c s -> unreserved c = true \/ In c (b "!$&'*+,;=:@/%").
(** What stands before the path when there is a domain with this scheme: an address that starts with two slashes takes the scheme. *)
Definition completed (scheme p : bytes) : bytes := match p with c :: _ => if c =? 47 then scheme ++ 58 :: p else p | [] => [] end.
