(** Specification of the calls of a program (C66). No proofs in this file. *)
From Coq Require Import List.
From Verif Require Import Bytes Api.
Import ListNotations.
Open Scope list_scope.

(** The domain that a list of options gives: that of the last WithDomain, none if there is no such option *)
Inductive domain_of (context : Type) : list (convert_option context) -> bytes -> Prop :=
| no_domain l : (forall d, ~ In (WithDomain context d) l) -> domain_of context l []
| last_domain x d z : (forall d', ~ In (WithDomain context d') z) -> domain_of context (x ++ WithDomain context d :: z) d.
