(** Specification for C43 with the strikethrough plugin: blocks inside a heading are inside struck text. No proofs in this file. *)
From Coq Require Import List NArith Bool String.
From Verif Require Import Bytes Dom SpecDom.
Import ListNotations.
Open Scope N_scope.
Open Scope list_scope.

Definition struck_names : list bytes := map b ["del"; "s"; "strike"]%string.
Definition title_names : list bytes := map b ["h1"; "h2"; "h3"; "h4"; "h5"; "h6"]%string.
(** No block in this part of the tree, except below struck text *)
Fixpoint blocks_struck (n : node) : bool :=
  match n with
  | Elem x _ ks => name_in struck_names x || negb (name_in block_like x) && forallb blocks_struck ks
  | Doc ks => forallb blocks_struck ks
  | _ => true
  end.
Definition title_shape (n : node) : bool := match n with Elem x _ ks => negb (name_in title_names x) || forallb blocks_struck ks | _ => true end.
