(** Theorems about the two ends and the blank lines of converted markdown (C19).  Only statements; the specification is SpecTrim.v.

    [unmarked_run sort m us url doc out]: converting the document in escape mode [m] with the bundled plugins [us], one of them base,
    yields [out]; neither the visible texts and attributes of the document nor the delimiters given as options contain the bell
    (U+0007) or U+F002, the two characters that the code uses as markers, and the function that makes addresses absolute does not
    bring them in. *)
From Coq Require Import List NArith ZArith Bool String.
From Verif Require Import Bytes Escape Dom RenderText SpecText SpecDom Engine CommonMark Table SpecEngine SpecPipeline SpecPlain SpecTrim EdgeFacts6.
Import ListNotations.
Open Scope N_scope.
Open Scope list_scope.

Definition c19_pre : node := Elem (b "pre") [] [Text ([10] ++ b "a" ++ [10; 10; 10; 10] ++ b "b" ++ [10; 10])].
Definition c19_list : node := Elem (b "ul") [] [Elem (b "li") [] [Text (b "x"); Elem (b "br") [] []; Elem (b "br") [] []; Text [194; 160]]].
Definition c19_doc : node := Doc [Elem (b "p") [] [Text ([10; 32; 194; 160] ++ b "# a")]; Elem (b "p") [] [Elem (b "br") [] []]; c19_list; c19_pre; Text [32; 226; 128; 131]].
Definition c19_uses : list use := [UseCommonmark empty_config; UseBase; UseStrikethrough []; UseTable []].
Definition c19_out : bytes := b "\# a" ++ [10; 10] ++ b "- x" ++ [10; 10] ++ b "```" ++ [10; 10] ++ b "a" ++ [10; 10; 10; 10] ++ b "b" ++ [10; 10] ++ b "```".
Definition c19_short : node := Doc [Elem (b "p") [] [Text ([10; 32; 194; 160] ++ b "# a")]; Elem (b "p") [] [Elem (b "br") [] []]; c19_list; Elem (b "p") [] [Text (b "y")]; Text [32; 226; 128; 131]].
Example c19_setting : unmarked_run stable_sort Smart c19_uses (fun _ u => u) c19_doc c19_out.
Proof.
  split; [exact EngineFacts.stable_sort_sorts|]. split; [right; now left|]. split; [|split; [auto|]].
  - split; [intros cfg [[= <-]|[J|[J|[J|[]]]]]; try discriminate; repeat split|intros d [J|[J|[[= <-]|[J|[]]]]]; try discriminate; reflexivity].
  - split; [vm_compute; reflexivity|]. split; [reflexivity|]. vm_compute. reflexivity.
Qed.

(** C19. The output neither starts nor ends with one of the 25 characters with the Unicode property White_Space. *)
Theorem c19_trimmed : forall sort m us url doc out, unmarked_run sort m us url doc out -> trimmed out.
Proof. exact unmarked_trimmed. Qed.
Print Assumptions c19_trimmed.

(** Without a code block there are no three newlines in a row, with or without spaces between them. *)
Theorem c19_no_blank_runs : forall sort m us url doc out, unmarked_run sort m us url doc out -> without_code_blocks doc = true -> ~ three_newlines out.
Proof. exact unmarked_blank_runs. Qed.
Print Assumptions c19_no_blank_runs.
Example c19_short_ex : unmarked_run stable_sort Smart c19_uses (fun _ u => u) c19_short (b "\# a" ++ [10; 10] ++ b "- x" ++ [10; 10] ++ b "y") /\ without_code_blocks c19_short = true.
Proof.
  split; [|vm_compute; reflexivity]. split; [exact EngineFacts.stable_sort_sorts|]. split; [right; now left|]. split; [|split; [auto|]].
  - split; [intros cfg [[= <-]|[J|[J|[J|[]]]]]; try discriminate; repeat split|intros d [J|[J|[[= <-]|[J|[]]]]]; try discriminate; reflexivity].
  - split; [vm_compute; reflexivity|]. split; [reflexivity|]. vm_compute. reflexivity.
Qed.

(** With code blocks: the text that is there before the newlines of the code are put back is trimmed and has no three newlines in a
    row either; the output is that text with the newlines of the code put back. *)
Theorem c19_code_newlines : forall sort m us url doc out cfg, unmarked_run sort m us url doc out -> In (UseCommonmark cfg) us ->
  exists s, converts (convert_node sort (stopped_before 1000 (converter_with m us)) url doc) s
            /\ trimmed s /\ ~ three_newlines s /\ out = put_back s.
Proof. exact unmarked_stopped. Qed.
Print Assumptions c19_code_newlines.
Definition c19_nl : bytes := [239; 128; 130].
Example c19_code_ex : converts (convert_node stable_sort (stopped_before 1000 (converter_with Smart c19_uses)) (fun _ u => u) c19_doc)
  (b "\# a" ++ [10; 10] ++ b "- x" ++ [10; 10] ++ b "```" ++ [10] ++ c19_nl ++ b "a" ++ c19_nl ++ c19_nl ++ c19_nl ++ c19_nl ++ b "b" ++ c19_nl ++ [10] ++ b "```").
Proof. vm_compute. reflexivity. Qed.

(** The hypothesis about the marker characters is needed: the bell is dropped after trimming, and U+F002 becomes a newline. *)
Theorem c19_bell_refuted : exists doc out, converts (convert_node stable_sort (converter_with Smart default_uses) (fun _ u => u) doc) out /\ ~ trimmed out.
Proof.
  exists (Doc [Text ([7; 32] ++ b "a")]), (b " a"). split; [vm_compute; reflexivity|].
  intros H. destruct (H [32]) as [K _]; [vm_compute; tauto|]. now apply (K (b "a")).
Qed.
Print Assumptions c19_bell_refuted.
Theorem c19_mark_refuted : exists doc out, converts (convert_node stable_sort (converter_with Smart default_uses) (fun _ u => u) doc) out /\ ~ trimmed out.
Proof.
  exists (Doc [Text (b "a" ++ [239; 128; 130])]), (b "a" ++ [10]). split; [vm_compute; reflexivity|].
  intros H. destruct (H [10]) as [_ K]; [vm_compute; tauto|]. now apply (K (b "a")).
Qed.
Print Assumptions c19_mark_refuted.
