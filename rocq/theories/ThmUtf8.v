(** Theorems about valid UTF-8 (C62).  Only statements; the specification is SpecUtf8.v.

    [utf8_run sort m us url doc out]: converting the document in escape mode [m] with the bundled plugins [us], one of them base,
    yields [out]; the visible texts and attributes of the document and the delimiters given as options are valid UTF-8, and the
    function that makes addresses absolute turns valid UTF-8 into valid UTF-8. *)
From Coq Require Import List NArith ZArith Bool String.
From Verif Require Import Bytes Escape Dom RenderText SpecDom Engine CommonMark Table SpecEngine SpecPipeline NetUrl Url SpecUtf8 Utf8Facts4 Utf8Facts5.
Import ListNotations.
Open Scope N_scope.
Open Scope list_scope.

(** U+65E5 and U+00E9 *)
Definition c62_sun : bytes := [230; 151; 165].
Definition c62_e : bytes := [195; 169].
Definition c62_doc : node := Doc [Elem (b "h2") [] [Text (c62_sun ++ b "#" ++ [194; 160])]; Elem (b "p") [] [Text (c62_e ++ [0] ++ b "*" ++ c62_sun)];
  Elem (b "a") [(b "href", b "/" ++ c62_e); (b "title", c62_sun)] [Elem (b "b") [] [Text ([227; 128; 128] ++ c62_sun ++ [32])]]].
Definition c62_out : bytes := b "## " ++ c62_sun ++ b "\#" ++ [10; 10] ++ c62_e ++ [239; 191; 189] ++ b "\*" ++ c62_sun ++ [10; 10; 227; 128; 128] ++
  b "[**" ++ c62_sun ++ b "**](/" ++ c62_e ++ [32; 34] ++ c62_sun ++ [34; 41].
Example c62_setting : utf8_run stable_sort Smart [UseBase; UseCommonmark empty_config] (fun _ u => u) c62_doc c62_out.
Proof.
  split; [exact EngineFacts.stable_sort_sorts|]. split; [now left|]. split; [|split; [auto|split]].
  - split; [intros cfg [J|[[= <-]|[]]]; try discriminate; repeat split; (exists []; split; [constructor|reflexivity])|intros d [J|[J|[]]]; discriminate].
  - intros s I. apply utf8_bool. assert (F : forallb Utf8Facts.validb (seen_strings c62_doc) = true) by (vm_compute; reflexivity). rewrite forallb_forall in F. now apply F.
  - split; [reflexivity|vm_compute; reflexivity].
Qed.

(** C62. In smart mode, with all bundled plugins: valid UTF-8 in, valid UTF-8 out.  [tidy] holds for every tree the HTML parser
    makes.  The delimiters must not contain a number sign (c62_delimiter_refuted). *)
Theorem c62_utf8 : forall sort us url doc out cfg, utf8_run sort Smart us url doc out -> In (UseCommonmark cfg) us ->
  (forall c, In (UseCommonmark c) us -> ~ In 35 (em_delimiter (fill_defaults c)) /\ ~ In 35 (strong_delimiter (fill_defaults c))) ->
  (forall d, In (UseStrikethrough d) us -> d = [] \/ ~ In 35 d /\ exists c, In c d /\ graphic c = true) -> tidy doc = true -> utf8 out.
Proof. exact utf8_headings. Qed.
Print Assumptions c62_utf8.
Example c62_example : In (UseCommonmark empty_config) [UseBase; UseCommonmark empty_config] /\ tidy c62_doc = true
  /\ ~ In 35 (em_delimiter (fill_defaults empty_config)) /\ ~ In 35 (strong_delimiter (fill_defaults empty_config)) /\ utf8 c62_out.
Proof. repeat split; [right; now left|vm_compute; intuition discriminate|vm_compute; intuition discriminate|apply utf8_bool; vm_compute; reflexivity]. Qed.

(** Without headings: with any of the bundled plugins and in both escape modes. *)
Theorem c62_no_headings : forall sort m us url doc out, utf8_run sort m us url doc out -> without_headings doc = true -> utf8 out.
Proof. exact utf8_no_headings. Qed.
Print Assumptions c62_no_headings.
Definition c62_table : node := Elem (b "table") [] [Elem (b "tr") [] [Elem (b "td") [] [Text (c62_e ++ b "|" ++ c62_sun)]; Elem (b "td") [] [Elem (b "s") [] [Text c62_e]]];
  Elem (b "caption") [] [Text (c62_sun ++ b "#")]].
Definition c62_table_out : bytes :=
  b "|     |       |" ++ [10] ++ b "|-----|-------|" ++ [10] ++ b "| " ++ c62_e ++ b "|" ++ c62_sun ++ b " | ~~" ++ c62_e ++ b "~~ |" ++ [10; 10] ++ c62_sun ++ b "#".
Example c62_table_ex : utf8_run stable_sort Disabled [UseTable []; UseStrikethrough []; UseBase; UseCommonmark empty_config] (fun _ u => u) c62_table c62_table_out
  /\ without_headings c62_table = true.
Proof.
  split; [|reflexivity].
  split; [exact EngineFacts.stable_sort_sorts|]. split; [right; right; now left|]. split; [|split; [auto|split]].
  - split; [intros cfg [J|[J|[J|[[= <-]|[]]]]]; try discriminate; repeat split; (exists []; split; [constructor|reflexivity])|].
    intros d [J|[[= <-]|[J|[J|[]]]]]; try discriminate. exists []. split; [constructor|reflexivity].
  - intros s I. apply utf8_bool. assert (F : forallb Utf8Facts.validb (seen_strings c62_table) = true) by (vm_compute; reflexivity). rewrite forallb_forall in F. now apply F.
  - split; [reflexivity|vm_compute; reflexivity].
Qed.

(** The function that makes addresses absolute (by default, or with a domain given as an option) meets that requirement. *)
Theorem c62_addresses : forall domain raw, utf8 domain -> utf8 raw -> utf8 (assemble_absolute_url go_url domain raw).
Proof. exact assemble_utf8. Qed.
Print Assumptions c62_addresses.
Example c62_addresses_ex : utf8 (c62_e ++ b ".example") /\ utf8 (b "  ../" ++ c62_sun ++ b "?q=" ++ c62_e ++ b "&%ff#" ++ c62_sun)
  /\ assemble_absolute_url go_url (c62_e ++ b ".example/a/b") (b "  ../" ++ c62_sun ++ b "?q=" ++ c62_e ++ b "&%f#" ++ c62_sun)
     = b "http://%C3%A9.example/%E6%97%A5?q=%C3%A9&%f#%E6%97%A5"
  /\ utf8 (b "x:" ++ c62_sun) /\ assemble_absolute_url go_url [] (b "x:" ++ c62_sun) = b "x:" ++ c62_sun.
Proof. repeat split; try (apply utf8_bool; vm_compute; reflexivity); vm_compute; reflexivity. Qed.

(** Smart mode is needed: with escaping disabled, a heading that ends with a number sign loses the last byte before it, which may be
    the last byte of a character. *)
Theorem c62_disabled_refuted : exists doc out, utf8_run stable_sort Disabled default_uses (fun _ u => u) doc out /\ tidy doc = true /\ ~ utf8 out.
Proof.
  exists (Doc [Elem (b "h2") [] [Text (c62_sun ++ b "#")]]), (b "## " ++ [230; 151] ++ b "\#"). split; [|split; [reflexivity|apply utf8_bool_not; vm_compute; reflexivity]].
  split; [exact EngineFacts.stable_sort_sorts|]. split; [now left|]. split; [|split; [auto|split]].
  - split; [intros cfg [J|[[= <-]|[]]]; try discriminate; repeat split; (exists []; split; [constructor|reflexivity])|intros d [J|[J|[]]]; discriminate].
  - intros s [<-|[]]. apply utf8_bool. vm_compute. reflexivity.
  - split; [reflexivity|vm_compute; reflexivity].
Qed.
Print Assumptions c62_disabled_refuted.

(** A delimiter with a number sign after such a character is cut in the same way. *)
Definition c62_delimiter : config := {| em_delimiter := [95] ++ c62_e ++ [35]; strong_delimiter := []; horizontal_rule := []; bullet_marker := []; code_fence_opt := []; heading_style := [];
  link_style := []; link_empty_href := []; link_empty_content := []; disable_end_comment := false |}.
Theorem c62_delimiter_refuted : exists doc out, utf8_run stable_sort Smart [UseBase; UseCommonmark c62_delimiter] (fun _ u => u) doc out /\ tidy doc = true /\ ~ utf8 out.
Proof.
  exists (Doc [Elem (b "h2") [] [Elem (b "em") [] [Text (b "a")]]]), (b "## _" ++ c62_e ++ b "#a_" ++ [195] ++ b "\#"). split; [|split; [reflexivity|apply utf8_bool_not; vm_compute; reflexivity]].
  split; [exact EngineFacts.stable_sort_sorts|]. split; [now left|]. split; [|split; [auto|split]].
  - split; [intros cfg [J|[[= <-]|[]]]; try discriminate; repeat split; apply utf8_bool; vm_compute; reflexivity|intros d [J|[J|[]]]; discriminate].
  - intros s [<-|[]]. apply utf8_bool. vm_compute. reflexivity.
  - split; [reflexivity|vm_compute; reflexivity].
Qed.
Print Assumptions c62_delimiter_refuted.
