(** Specification vocabulary for valid UTF-8 (C62). *)
From Coq Require Import List NArith ZArith Bool String.
From Verif Require Import Bytes Escape Dom RenderText SpecDom Engine CommonMark Table SpecEngine SpecPipeline.
Import ListNotations.
Open Scope N_scope.
Open Scope list_scope.

(** The octet sequences that encode one character, as in the table of RFC 3629, section 4 *)
Definition tail_octet (c : N) : Prop := 128 <= c <= 191.
Inductive utf8_char : bytes -> Prop :=
| one_octet c : c <= 127 -> utf8_char [c]
| two_octets c d : 194 <= c <= 223 -> tail_octet d -> utf8_char [c; d]
| three_octets_a d e : 160 <= d <= 191 -> tail_octet e -> utf8_char [224; d; e]
| three_octets_b c d e : 225 <= c <= 236 -> tail_octet d -> tail_octet e -> utf8_char [c; d; e]
| three_octets_c d e : 128 <= d <= 159 -> tail_octet e -> utf8_char [237; d; e]
| three_octets_d c d e : 238 <= c <= 239 -> tail_octet d -> tail_octet e -> utf8_char [c; d; e]
| four_octets_a d e f : 144 <= d <= 191 -> tail_octet e -> tail_octet f -> utf8_char [240; d; e; f]
| four_octets_b c d e f : 241 <= c <= 243 -> tail_octet d -> tail_octet e -> tail_octet f -> utf8_char [c; d; e; f]
| four_octets_c d e f : 128 <= d <= 143 -> tail_octet e -> tail_octet f -> utf8_char [244; d; e; f].
Definition utf8 (s : bytes) : Prop := exists cs, Forall utf8_char cs /\ s = List.concat cs.

(** The texts and the values of the attributes of a document, outside of elements that are never shown *)
Fixpoint seen_strings (n : node) : list bytes :=
  match n with
  | Text d => [d]
  | Elem x a ks => if name_in hidden_names x then [] else map snd a ++ flat_map seen_strings ks
  | Doc ks => flat_map seen_strings ks
  | _ => []
  end.
Definition utf8_document (doc : node) : Prop := forall s, In s (seen_strings doc) -> utf8 s.
(** The delimiters given as options *)
Definition utf8_options (us : list use) : Prop :=
  (forall cfg, In (UseCommonmark cfg) us -> utf8 (em_delimiter cfg) /\ utf8 (strong_delimiter cfg) /\ utf8 (horizontal_rule cfg))
  /\ (forall d, In (UseStrikethrough d) us -> utf8 d).
(** Converting [doc] with the plugins [us], one of them base, yields [out]; the document, the options and the function that makes
    addresses absolute bring in valid UTF-8 only. *)
Definition utf8_run (sort : forall A : Type, list (Z * A) -> list (Z * A)) (m : escape_mode) (us : list use)
    (url : bytes -> bytes -> bytes) (doc : node) (out : bytes) : Prop :=
  sorts sort /\ In UseBase us /\ utf8_options us /\ (forall tag raw, utf8 raw -> utf8 (url tag raw))
  /\ utf8_document doc /\ invisible doc = false /\ converts (convert_node sort (converter_with m us) url doc) out.
(** A document without headings outside of elements that are never shown *)
Fixpoint without_headings (n : node) : bool :=
  match n with
  | Elem x _ ks => name_in hidden_names x
                   || negb (name_in (map b ["h1"; "h2"; "h3"; "h4"; "h5"; "h6"]%string) x) && forallb without_headings ks
  | Doc ks => forallb without_headings ks
  | _ => true
  end.
