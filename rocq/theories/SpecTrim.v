(** Specification vocabulary for the two ends and the blank lines of converted markdown (C19). *)
From Coq Require Import List NArith ZArith Bool String.
From Verif Require Import Bytes Escape Dom RenderText SpecDom Engine CommonMark Table SpecEngine SpecPipeline SpecPlain.
Import ListNotations.
Open Scope N_scope.
Open Scope list_scope.

(** The characters with the Unicode property White_Space, in UTF-8: U+0009 to U+000D, U+0020, U+0085, U+00A0, U+1680, U+2000 to
    U+200A, U+2028, U+2029, U+202F, U+205F, U+3000 *)
Definition white_characters : list bytes :=
  [[9]; [10]; [11]; [12]; [13]; [32]; [194; 133]; [194; 160]; [225; 154; 128];
   [226; 128; 128]; [226; 128; 129]; [226; 128; 130]; [226; 128; 131]; [226; 128; 132]; [226; 128; 133]; [226; 128; 134];
   [226; 128; 135]; [226; 128; 136]; [226; 128; 137]; [226; 128; 138];
   [226; 128; 168]; [226; 128; 169]; [226; 128; 175]; [226; 129; 159]; [227; 128; 128]].
Definition trimmed (s : bytes) : Prop :=
  forall w, In w white_characters -> (forall z, s <> w ++ z) /\ (forall z, s <> z ++ w).

(** A text without the two characters that the code uses as markers: the bell and U+F002 *)
Definition unmarked (s : bytes) : bool := forallb (fun c => negb (c =? 7)) s && no_newline_mark s.
(** Texts and attributes of what is seen have a property, the names of the elements another one. *)
Fixpoint seen_ok (str_ok name_ok : bytes -> bool) (n : node) : bool :=
  match n with
  | Text d => str_ok d
  | Elem x a ks => name_in hidden_names x
                   || (name_ok x && forallb (fun kv => str_ok (snd kv)) a) && forallb (seen_ok str_ok name_ok) ks
  | Doc ks => forallb (seen_ok str_ok name_ok) ks
  | _ => true
  end.
Definition unmarked_document (doc : node) : bool := seen_ok unmarked (fun _ => true) doc.
Definition without_code_blocks (doc : node) : bool := seen_ok (fun _ => true) (fun x => negb (beqb x (b "pre"))) doc.
(** Every occurrence of the three bytes of U+F002 stands for a newline of a code block. *)
Definition put_back (s : bytes) : bytes := replace_all [239; 128; 130] [10] s.
(** Delimiters given as options contain neither of the marker characters. *)
Definition unmarked_options (us : list use) : Prop :=
  (forall cfg, In (UseCommonmark cfg) us ->
    unmarked (em_delimiter cfg) = true /\ unmarked (strong_delimiter cfg) = true /\ unmarked (horizontal_rule cfg) = true)
  /\ (forall d, In (UseStrikethrough d) us -> unmarked d = true).
(** Converting [doc] with the plugins [us], one of them base, yields [out]; the document, the options and the function that makes
    addresses absolute do not bring in the marker characters. *)
Definition unmarked_run (sort : forall A : Type, list (Z * A) -> list (Z * A)) (m : escape_mode) (us : list use)
    (url : bytes -> bytes -> bytes) (doc : node) (out : bytes) : Prop :=
  sorts sort /\ In UseBase us /\ unmarked_options us /\ (forall tag raw, unmarked raw = true -> unmarked (url tag raw) = true)
  /\ unmarked_document doc = true /\ invisible doc = false /\ converts (convert_node sort (converter_with m us) url doc) out.
(** The converter that leaves out the handlers after rendering from a priority on; with 1000 that is the one of the commonmark plugin
    that turns U+F002 into the newlines of code blocks, which runs last (plugin/commonmark/commonmark.go:181-183). *)
Definition stopped_before (p : Z) (c : converter) : converter := {|
  cv_err := cv_err c; cv_plugins := cv_plugins c; cv_pre := cv_pre c; cv_render := cv_render c;
  cv_post := filter (fun h => (fst h <? p)%Z) (cv_post c);
  cv_text := cv_text c; cv_chars := cv_chars c; cv_unescape := cv_unescape c; cv_tags := cv_tags c; cv_mode := cv_mode c |}.
