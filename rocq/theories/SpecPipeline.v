(** Specification vocabulary for whole conversions: converters with the bundled plugins, readers of the output. *)
From Coq Require Import List NArith ZArith Bool String.
From Verif Require Import Bytes Escape Dom RenderText Engine CommonMark Table.
Import ListNotations.
Open Scope N_scope.
Open Scope list_scope.

(** The plugins of /repo/plugin with the arguments of their constructors. *)
Inductive use :=
| UseBase
| UseCommonmark (cfg : config)              (* the config after the options, before the defaults *)
| UseStrikethrough (delimiter : bytes)      (* empty: the default *)
| UseTable (os : list table_option).
Definition plugin_of (u : use) : plugin :=
  match u with
  | UseBase => base_plugin
  | UseCommonmark cfg => commonmark_plugin cfg
  | UseStrikethrough d => strikethrough_plugin d
  | UseTable os => table_plugin os
  end.
(** converter.NewConverter(WithEscapeMode(m), WithPlugins(us...)) *)
Definition converter_with (m : escape_mode) (us : list use) : converter :=
  new_converter [OptMode m; OptPlugins (map plugin_of us)].
(** htmltomarkdown.ConvertString *)
Definition default_uses : list use := [UseBase; UseCommonmark empty_config].
(** The conversion gave a text. *)
Definition converts (o : outcome) (out : bytes) : Prop := o = Returned (Done out).

(** A visible ASCII byte other than the number sign *)
Definition visible_ascii (c : N) : Prop := c < 128 /\ c <> 35 /\ c <> 32 /\ ~ (9 <= c <= 13).

(** Reads the entities of less-than and greater-than. *)
Fixpoint read_entities (skip : nat) (s : bytes) : bytes :=
  match s with
  | [] => []
  | c :: t =>
      match skip with
      | S k => read_entities k t
      | O => if has_prefix (b "&lt;") s then 60 :: read_entities 3 t
             else if has_prefix (b "&gt;") s then 62 :: read_entities 3 t
             else c :: read_entities 0 t
      end
  end.
