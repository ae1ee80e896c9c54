(** C46: which option values are accepted and what they mean. *)
From Coq Require Import List NArith ZArith Bool String.
From Verif Require Import Bytes Escape Dom Engine RenderText CommonMark Table SpecEngine SpecPipeline SpecOptions EngineFacts OptionFacts.
Import ListNotations.
Open Scope N_scope.
Open Scope list_scope.

(** With documented values (or none) for all options of all plugins a converter works. *)
Theorem c46_documented_accepted : forall sort m us url doc, sorts sort -> Forall documented_use us ->
  In UseBase us -> (exists u, In u us /\ u <> UseBase) ->
  exists r, convert_node sort (converter_with m us) url doc = Returned r.
Proof. exact right_works. Qed.
Print Assumptions c46_documented_accepted.
Definition c46_uses : list use := [UseBase; UseCommonmark {| em_delimiter := b "_"; strong_delimiter := []; horizontal_rule := b "- - -"; bullet_marker := b "+";
  disable_end_comment := true; code_fence_opt := b "~~~"; heading_style := b "setext"; link_style := []; link_empty_href := b "skip"; link_empty_content := [] |};
  UseTable [OSpan (b "mirror"); OPadding []]].
Example c46_documented_ex : Forall documented_use c46_uses /\ In UseBase c46_uses /\ exists u, In u c46_uses /\ u <> UseBase.
Proof.
  split; [|split; [now left|eexists; split; [right; now left|discriminate]]]. constructor; [exact I|]. constructor; [|constructor; [|constructor]].
  - assert (T : thematic_break (b "- - -")).
    { exists 45. split; [right; now left|]. split; [|vm_compute; repeat constructor]. intros y Y. vm_compute in Y. intuition. }
    unfold documented_use, documented_config, unset_or, among. cbn [em_delimiter strong_delimiter horizontal_rule bullet_marker code_fence_opt heading_style link_style link_empty_href link_empty_content].
    repeat split; try (now left); right; try exact T; vm_compute; auto.
  - constructor; [right; right; now left|]. constructor; [now left|constructor].
Qed.
(** Another word for a choice, a delimiter without its character or a rule that is none makes every conversion fail. *)
Theorem c46_other_values_refused : forall sort m us u url doc, In u us -> refused_use u ->
  exists e, convert_node sort (converter_with m us) url doc = Failed e.
Proof. exact wrong_fails. Qed.
Print Assumptions c46_other_values_refused.
Example c46_refused_ex : refused_use (UseTable [OSkipEmpty true; OPadding (b "wide")]).
Proof. exists (OPadding (b "wide")). split; [right; now left|]. intros [H|[H|[H|[H|[]]]]]; discriminate H. Qed.
(** The behaviour of empty links is not checked. *)
Theorem c46_link_behavior_refuted : exists c, ~ documented_config c /\ validate_config (fill_defaults c) = None /\ link_empty_href c = b "sikp".
Proof.
  exists {| em_delimiter := []; strong_delimiter := []; horizontal_rule := []; bullet_marker := []; disable_end_comment := false; code_fence_opt := [];
    heading_style := []; link_style := []; link_empty_href := b "sikp"; link_empty_content := [] |}.
  split; [|split; reflexivity]. intros (_ & _ & _ & _ & _ & _ & _ & [H|[H|[H|[]]]] & _); discriminate H.
Qed.
Print Assumptions c46_link_behavior_refuted.
(** What the table plugin works with: the last value given for each option, otherwise (or if that is empty) its default *)
Theorem c46_table_values : forall os tc, apply_table_options os table_defaults = (tc, None) ->
  span_behavior tc = last_given (fun o => match o with OSpan v => unless_empty v | _ => None end) [] os
  /\ newline_behavior tc = last_given (fun o => match o with ONewline v => unless_empty v | _ => None end) [] os
  /\ cell_padding tc = last_given (fun o => match o with OPadding v => Some (match v with [] => b "aligned" | _ => v end) | _ => None end) (b "aligned") os
  /\ skip_empty_rows tc = last_given (fun o => match o with OSkipEmpty v => Some v | _ => None end) false os
  /\ promote_first_row tc = last_given (fun o => match o with OPromote v => Some v | _ => None end) false os
  /\ convert_presentation tc = last_given (fun o => match o with OPresentation v => Some v | _ => None end) false os.
Proof. intros os. exact (table_values os table_defaults). Qed.
Print Assumptions c46_table_values.
Example c46_table_ex : exists tc, apply_table_options [OPadding (b "none"); OSpan (b "mirror"); OPadding []; OPromote true] table_defaults = (tc, None)
  /\ cell_padding tc = b "aligned" /\ span_behavior tc = b "mirror" /\ promote_first_row tc = true.
Proof. eexists. split; [reflexivity|]. repeat split. Qed.
