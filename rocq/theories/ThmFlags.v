(** C59: what the arguments of the command line program mean. *)
From Coq Require Import List NArith ZArith Bool String.
From Verif Require Import Bytes Cli SpecText SpecNode SpecFlags FlagFacts.
Import ListNotations.
Open Scope N_scope.
Open Scope list_scope.

(** Accepted arguments are flags with values, and the configuration is what these values mean. *)
Theorem c59_flags : forall selector parse args c rest, parse_flags selector parse args = inl (c, rest) ->
  exists gs, reading args gs rest /\ meant selector parse gs c /\ table_ready selector c.
Proof. exact flags_meant. Qed.
Print Assumptions c59_flags.
(** Flags with acceptable values are accepted. *)
Theorem c59_accepted : forall selector parse args gs rest c0, reading args gs rest -> meant selector parse gs c0 -> table_ready selector c0 ->
  exists c, parse_flags selector parse args = inl (c, rest) /\ meant selector parse gs c.
Proof. exact flags_accepted. Qed.
Print Assumptions c59_accepted.
Definition c59_args : list bytes := map b ["--input"; " a b "; "-plugin-table=T"; "--plugin-table=0"; "-plugin-table"; "--domain=x=y"; "--"; "-v"]%string.
Definition c59_given : list (bytes * bytes) :=
  [(b "input", b " a b "); (b "plugin-table", b "T"); (b "plugin-table", b "0"); (b "plugin-table", b "true"); (b "domain", b "x=y")].
Example c59_ex : reading c59_args c59_given [b "-v"] /\ exists c, parse_flags unit (fun _ => None) c59_args = inl (c, [b "-v"])
  /\ c_input _ c = b "a b" /\ c_table _ c = true /\ c_domain _ c = b "x=y" /\ c_version _ c = false /\ c_strong _ c = b "**".
Proof.
  split; [|eexists; split; [vm_compute; reflexivity|repeat split]].
  apply (Read_next (b "--input") (b "input")); [now left|now right|].
  apply (Read_equals (b "-plugin-table=T") (b "plugin-table") (b "T")); [vm_compute; tauto|now left|].
  apply (Read_equals (b "--plugin-table=0") (b "plugin-table") (b "0")); [vm_compute; tauto|now right|].
  apply (Read_switch (b "-plugin-table") (b "plugin-table")); [vm_compute; tauto|now left|].
  apply (Read_equals (b "--domain=x=y") (b "domain") (b "x=y")); [vm_compute; tauto|now right|]. apply Read_stop.
Qed.
