(** Specification vocabulary for the flags of the command line program (C59): how a list of arguments is read and what the values
    given mean. No proofs in this file. *)
From Coq Require Import List NArith ZArith Bool String.
From Verif Require Import Bytes SpecText SpecNode Cli.
Import ListNotations.
Open Scope N_scope.
Open Scope list_scope.

(** Flags that need no value, and flags with a value *)
Definition switches : list bytes := map b ["version"; "v"; "output-overwrite"; "plugin-strikethrough"; "plugin-table"; "opt-table-skip-empty-rows";
  "opt-table-header-promotion"; "opt-table-presentation-tables"]%string.
Definition valued : list bytes := map b ["input"; "output"; "domain"; "include-selector"; "exclude-selector"; "opt-strong-delimiter";
  "opt-table-span-cell-behavior"; "opt-table-newline-behavior"; "opt-table-cell-padding-behavior"]%string.
Definition dashed (w a : bytes) : Prop := a = [45] ++ w \/ a = [45; 45] ++ w.
(** The arguments, the values given for the flags in order, and what is left over *)
Inductive reading : list bytes -> list (bytes * bytes) -> list bytes -> Prop :=
| Read_end : reading [] [] []
| Read_other a args : a = [45] \/ first_is 45 a = false -> reading (a :: args) [] (a :: args)
| Read_stop args : reading ([45; 45] :: args) [] args
| Read_switch a n args gs rest : In n switches -> dashed n a -> reading args gs rest -> reading (a :: args) ((n, b "true") :: gs) rest
| Read_equals a n v args gs rest : In n (switches ++ valued) -> dashed (n ++ [61] ++ v) a -> reading args gs rest -> reading (a :: args) ((n, v) :: gs) rest
| Read_next a n v args gs rest : In n valued -> dashed n a -> reading args gs rest -> reading (a :: v :: args) ((n, v) :: gs) rest.

(** The values given for some names, in order *)
Definition given (ns : list string) (gs : list (bytes * bytes)) : list bytes :=
  map snd (filter (fun g => existsb (beqb (fst g)) (map b ns)) gs).
Definition yes_words : list bytes := map b ["1"; "t"; "T"; "true"; "TRUE"; "True"]%string.
Definition no_words : list bytes := map b ["0"; "f"; "F"; "false"; "FALSE"; "False"]%string.
(** The last value counts; without one a switch is off. *)
Definition switched (ns : list string) (gs : list (bytes * bytes)) (v : bool) : Prop :=
  Forall (fun w => In w (yes_words ++ no_words)) (given ns gs) /\ (v = true <-> In (last (given ns gs) (b "false")) yes_words).
Definition text_is (n : string) (d : bytes) (gs : list (bytes * bytes)) (v : bytes) : Prop := v = last (given [n] gs) d.
(** At most once, and not blank *)
Definition once (n : string) (gs : list (bytes * bytes)) (v : bytes) : Prop :=
  given [n] gs = [] /\ v = [] \/ exists w, given [n] gs = [w] /\ ~ spaces w /\ trimmed w v.

Section meaning.
Variable selector : Type.
Variable parse : bytes -> option (list selector).
(** All selectors of all values together *)
Definition selected (n : string) (gs : list (bytes * bytes)) (l : list selector) : Prop :=
  exists ls, Forall2 (fun w s => ~ spaces w /\ parse w = Some s) (given [n] gs) ls /\ l = List.concat ls.
Definition meant (gs : list (bytes * bytes)) (c : config selector) : Prop :=
  switched ["version"; "v"]%string gs (c_version _ c)
  /\ once "input" gs (c_input _ c) /\ once "output" gs (c_output _ c) /\ switched ["output-overwrite"%string] gs (c_overwrite _ c)
  /\ text_is "domain" [] gs (c_domain _ c)
  /\ selected "include-selector" gs (c_include _ c) /\ selected "exclude-selector" gs (c_exclude _ c)
  /\ text_is "opt-strong-delimiter" (b "**") gs (c_strong _ c)
  /\ switched ["plugin-strikethrough"%string] gs (c_strikethrough _ c) /\ switched ["plugin-table"%string] gs (c_table _ c)
  /\ switched ["opt-table-skip-empty-rows"%string] gs (c_skip_empty_rows _ c)
  /\ switched ["opt-table-header-promotion"%string] gs (c_header_promotion _ c)
  /\ text_is "opt-table-span-cell-behavior" [] gs (c_span_cells _ c)
  /\ switched ["opt-table-presentation-tables"%string] gs (c_presentation _ c)
  /\ text_is "opt-table-newline-behavior" [] gs (c_newlines _ c)
  /\ text_is "opt-table-cell-padding-behavior" [] gs (c_padding _ c).
(** The options of the table plugin need the plugin. *)
Definition table_ready (c : config selector) : Prop :=
  c_skip_empty_rows _ c = true \/ c_header_promotion _ c = true \/ c_span_cells _ c <> [] \/ c_presentation _ c = true \/
  c_newlines _ c <> [] \/ c_padding _ c <> [] -> c_table _ c = true.
End meaning.
