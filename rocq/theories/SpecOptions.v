(** Specification vocabulary for the options of the plugins (C46). No proofs in this file. *)
From Coq Require Import List NArith ZArith Bool String.
From Verif Require Import Bytes RenderText Table SpecPipeline.
Import ListNotations.
Open Scope N_scope.
Open Scope list_scope.

(** A line that is a thematic break: at least three of the same character, with blanks between them at most *)
Definition thematic_break (s : bytes) : Prop :=
  exists c, In c [42; 45; 95] /\ (forall y, In y s -> y = c \/ y = 32 \/ y = 9) /\ (3 <= count_byte c s)%nat.
Definition unset_or (P : bytes -> Prop) (v : bytes) : Prop := v = [] \/ P v.
Definition among (l : list string) (v : bytes) : Prop := In v (map b l).
(** The values that the comments of the options name *)
Definition documented_config (c : config) : Prop :=
  unset_or (among ["*"; "_"]%string) (em_delimiter c) /\ unset_or (among ["**"; "__"]%string) (strong_delimiter c)
  /\ unset_or thematic_break (horizontal_rule c) /\ unset_or (among ["-"; "+"; "*"]%string) (bullet_marker c)
  /\ unset_or (among ["```"; "~~~"]%string) (code_fence_opt c) /\ unset_or (among ["setext"; "atx"]%string) (heading_style c)
  /\ unset_or (among ["inlined"; "referenced_index"; "referenced_short"]%string) (link_style c)
  /\ unset_or (among ["render"; "skip"]%string) (link_empty_href c) /\ unset_or (among ["render"; "skip"]%string) (link_empty_content c).
Definition documented_option (o : table_option) : Prop :=
  match o with
  | OSpan v => unset_or (among ["empty"; "mirror"]%string) v
  | ONewline v => unset_or (among ["skip"; "preserve"]%string) v
  | OPadding v => unset_or (among ["aligned"; "minimal"; "none"]%string) v
  | _ => True
  end.
Definition documented_use (u : use) : Prop :=
  match u with UseCommonmark c => documented_config c | UseTable os => Forall documented_option os | _ => True end.

(** What is certainly refused: another word for a choice, a delimiter or a rule without the characters it needs *)
Definition refused_config (c : config) : Prop :=
  ~ unset_or (among ["-"; "+"; "*"]%string) (bullet_marker c) \/ ~ unset_or (among ["```"; "~~~"]%string) (code_fence_opt c)
  \/ ~ unset_or (among ["setext"; "atx"]%string) (heading_style c)
  \/ ~ unset_or (among ["inlined"; "referenced_index"; "referenced_short"]%string) (link_style c)
  \/ ~ unset_or (fun v => count_byte 42 v = 1 \/ count_byte 95 v = 1)%nat (em_delimiter c)
  \/ ~ unset_or (fun v => count_byte 42 v = 2 \/ count_byte 95 v = 2)%nat (strong_delimiter c)
  \/ ~ unset_or (fun v => 3 <= count_byte 42 v \/ 3 <= count_byte 45 v \/ 3 <= count_byte 95 v)%nat (horizontal_rule c).
Definition refused_use (u : use) : Prop :=
  match u with UseCommonmark c => refused_config c | UseTable os => exists o, In o os /\ ~ documented_option o | _ => False end.

(** The value of an option: the last one given, otherwise the default *)
Definition last_given {A} (pick : table_option -> option A) (d : A) (os : list table_option) : A :=
  fold_left (fun v o => match pick o with Some w => w | None => v end) os d.
Definition unless_empty (v : bytes) : option bytes := match v with [] => None | _ => Some v end.
