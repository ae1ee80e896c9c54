(** Specification vocabulary for the formatting inside paragraphs (C67): the formatting of the characters of a document, and a reader
    that finds the formatting in a markdown text (CommonMark 0.31 section 6: backslash escapes, code spans, links and emphasis). *)
From Coq Require Import List NArith ZArith Bool String.
From Verif Require Import Bytes Escape SpecEscape Dom SpecDom RenderText SpecText SpecText2 SpecUrl Engine CommonMark SpecPipeline SpecNode SpecPlain SpecBlocks.
Import ListNotations.
Open Scope N_scope.
Open Scope list_scope.

Record format := { f_strong : bool; f_em : bool; f_code : bool; f_link : option bytes }.
Definition unformatted : format := {| f_strong := false; f_em := false; f_code := false; f_link := None |}.
Definition as_strong (f : format) : format := {| f_strong := true; f_em := f_em f; f_code := f_code f; f_link := f_link f |}.
Definition as_em (f : format) : format := {| f_strong := f_strong f; f_em := true; f_code := f_code f; f_link := f_link f |}.
Definition as_code (f : format) : format := {| f_strong := f_strong f; f_em := f_em f; f_code := true; f_link := f_link f |}.
Definition as_link (dest : bytes) (f : format) : format := {| f_strong := f_strong f; f_em := f_em f; f_code := f_code f; f_link := Some dest |}.
(** A text with the format of each of its bytes *)
Definition styled : Type := list (N * format).
Definition in_format (f : format) (t : bytes) : styled := map (fun c => (c, f)) t.
Definition restyle (g : format -> format) (s : styled) : styled := map (fun p => (fst p, g (snd p))) s.

(** ** The formatting in a document *)
Definition strong_element (x : bytes) : bool := name_in (map b ["strong"; "b"]%string) x.
Definition em_element (x : bytes) : bool := name_in (map b ["em"; "i"]%string) x.
Definition code_element (x : bytes) : bool := name_in (map b ["code"; "var"; "samp"; "kbd"; "tt"]%string) x.
Section document.
Variable url : bytes -> bytes.         (* makes the address of a link absolute *)
Fixpoint formatted (n : node) : styled :=
  match n with
  | Text d => in_format unformatted d
  | Elem x a ks =>
      restyle (if strong_element x then as_strong else if em_element x then as_em else if code_element x then as_code
               else if beqb x (b "a") then as_link (url (attribute n (b "href"))) else fun f => f)
        (flat_map formatted ks)
  | _ => []
  end.
End document.

(** ** The reader *)
(** What a character counts as next to a run of delimiters *)
Inductive class := Blank | Punct | Letter.
Definition is_punct (k : class) : bool := match k with Punct => true | _ => false end.
Definition class_of (c : N) : class :=
  if existsb (N.eqb c) [9; 10; 12; 13; 32] then Blank else if ascii_punct c then Punct else Letter.
(** [k]: the side to which the run is flanking, [o]: the other side *)
Definition flanking (o k : class) : bool := match k with Blank => false | Letter => true | Punct => match o with Letter => false | _ => true end end.
(** Rules 1 to 8 for emphasis: the character, the class before and after it *)
Definition can_open (c : N) (p n : class) : bool := flanking p n && ((c =? 42) || negb (flanking n p) || is_punct p).
Definition can_close (c : N) (p n : class) : bool := flanking n p && ((c =? 42) || negb (flanking p n) || is_punct n).

Inductive token :=
| Char (c : N) (f : format)
| Delims (c : N) (left all : nat) (opens closes : bool)   (* a run of delimiters: how many are left, how many there were *)
| Lost.                                                   (* something that is not read: an image, HTML, an entity *)
Definition chars (s : styled) : list token := map (fun p => Char (fst p) (snd p)) s.
Section reader.
(** What other characters than ASCII count as, before and after a run; given is all of the text on that side *)
Variables wide_before wide_after : bytes -> class.
(** What is around the text *)
Variable edge : class.
Definition before_class (rev_text : bytes) : class :=
  match rev_text with [] => edge | c :: _ => if c <? 128 then class_of c else wide_before (rev rev_text) end.
Definition after_class (text : bytes) : class :=
  match text with [] => edge | c :: _ => if c <? 128 then class_of c else wide_after text end.
(** The text of a link *)
Variable link_text_read : bytes -> option styled.
(** [skip]: the number of characters that belong to what was read; [done]: all characters before, reversed *)
Fixpoint tokens (skip : nat) (done : bytes) (s : bytes) : list token :=
  match s with
  | [] => []
  | c :: t =>
      match skip with
      | S k => tokens k (c :: done) t
      | O =>
          let width (rest : bytes) := (List.length t - List.length rest)%nat in
          if (c =? 92) && match t with d :: _ => ascii_punct d | [] => false end
          then match t with d :: _ => Char d unformatted :: tokens 1 (c :: done) t | [] => [] end
          else if c =? 96 then
            match read_code_span s with
            | Some (inner, rest) => chars (in_format (as_code unformatted) inner) ++ tokens (width rest) (c :: done) t
            | None => chars (in_format unformatted (repeat 96 (run_length 96 s))) ++ tokens (pred (run_length 96 s)) (c :: done) t
            end
          else if (c =? 42) || (c =? 95) then
            let n := run_length c s in
            let p := before_class done in
            let k := after_class (drop_run c s) in
            Delims c n n (can_open c p k) (can_close c p k) :: tokens (pred n) (c :: done) t
          else if c =? 91 then
            match until_bracket O false t with
            | Some (text, u) =>
                match read_tail u with
                | Some (dest, _, rest) =>
                    match link_text_read text with
                    | Some inner => chars (restyle (as_link dest) inner) ++ tokens (width rest) (c :: done) t
                    | None => [Lost]
                    end
                | None => Char c unformatted :: tokens 0 (c :: done) t
                end
            | None => Char c unformatted :: tokens 0 (c :: done) t
            end
          else if has_prefix (b "&lt;") s then Char 60 unformatted :: tokens 3 (c :: done) t
          else if has_prefix (b "&gt;") s then Char 62 unformatted :: tokens 3 (c :: done) t
          else if (c =? 33) && first_is 91 t || (c =? 60) || (c =? 38) then [Lost]
          else Char c unformatted :: tokens 0 (c :: done) t
      end
  end.
End reader.
(** The delimiters between which emphasis is, and what is between them (CommonMark, process emphasis). The tokens that were passed are
    in reverse order. A run that can open and close is not matched if the sum of the lengths is a multiple of 3, unless both are. *)
Definition third (n : nat) : bool := Nat.eqb (Nat.modulo n 3) 0.
Definition fits (o1 c1 o2 c2 : bool) (n1 n2 : nat) : bool :=
  negb (((o1 && c1) || (o2 && c2)) && third (n1 + n2) && negb (third n1 && third n2)).
Fixpoint find_opener (c : N) (all : nat) (opens closes : bool) (between passed : list token) : option (list token * nat * nat * bool * list token) :=
  match passed with
  | [] => None
  | Delims d k n true cl :: r =>
      if (d =? c) && fits true cl opens closes n all then Some (between, k, n, cl, r)
      else find_opener c all opens closes (Delims d k n true cl :: between) r
  | x :: r => find_opener c all opens closes (x :: between) r
  end.
Definition literal (t : token) : list token :=
  match t with Delims c k _ _ _ => chars (in_format unformatted (repeat c k)) | _ => [t] end.
Definition emphasised (g : format -> format) (t : token) : token := match t with Char c f => Char c (g f) | _ => t end.
Fixpoint close_run (fuel : nat) (c : N) (k all : nat) (opens closes : bool) (passed : list token) : list token :=
  match fuel, k with
  | _, O => passed
  | O, _ => Lost :: passed
  | S f, _ =>
      match (if closes then find_opener c all opens closes [] passed else None) with
      | Some (between, j, n, cl, r) =>
          let u := if Nat.leb 2 k && Nat.leb 2 j then 2%nat else 1%nat in
          let inside := map (emphasised (if Nat.leb 2 k && Nat.leb 2 j then as_strong else as_em)) (flat_map literal between) in
          close_run f c (k - u) all opens closes (rev inside ++ (if Nat.eqb j u then r else Delims c (j - u) n true cl :: r))
      | None => if opens then Delims c k all opens closes :: passed else rev (literal (Delims c k all opens closes)) ++ passed
      end
  end.
Fixpoint resolve (passed todo : list token) : list token :=
  match todo with
  | [] => flat_map literal (rev passed)
  | Delims c k n o cl :: r => resolve (close_run k c k n o cl passed) r
  | x :: r => resolve (x :: passed) r
  end.
Fixpoint styled_of (ts : list token) : option styled :=
  match ts with
  | [] => Some []
  | Char c f :: r => option_map (cons (c, f)) (styled_of r)
  | _ => None
  end.
Section read.
Variables wide_before wide_after : bytes -> class.
(** The text of a link (between brackets): links inside it are not read. *)
Definition read_plain_inline (s : bytes) : option styled := styled_of (resolve [] (tokens wide_before wide_after Punct (fun _ => None) 0 [] s)).
Definition read_inline (s : bytes) : option styled := styled_of (resolve [] (tokens wide_before wide_after Blank read_plain_inline 0 [] s)).
End read.

(** ** Documents with formatted paragraphs *)
(** The delimiters that the reader knows: one of * and _ for emphasis, two for strong emphasis *)
Definition usual_delimiters (cfg : config) : Prop :=
  (em_delimiter cfg = [42] \/ em_delimiter cfg = [95]) /\ (strong_delimiter cfg = [42; 42] \/ strong_delimiter cfg = [95; 95]).

(** Texts without characters that could be taken for formatting, with single spaces *)
Definition quiet_char (c : N) : bool := negb (existsb (N.eqb c) [0; 7; 9; 10; 11; 12; 13; 38; 42; 91; 92; 93; 95; 96]).
Fixpoint single_spaced (s : bytes) : bool :=
  match s with c :: t => negb ((c =? 32) && first_is 32 t) && single_spaced t | [] => true end.
Definition quiet_text (d : bytes) : bool := negb (is_empty d) && no_newline_mark d && forallb quiet_char d && single_spaced d.
(** Texts outside emphasis and links may have these characters as well: a star or an underscore with an ASCII character after it, an
    opening bracket with a closing one after it, backslashes, and backticks that are not at the start of the text and not beside other
    backticks or tildes. *)
Definition busy_char (c : N) : bool := negb (existsb (N.eqb c) [0; 7; 9; 10; 11; 12; 13; 38]).
Definition star (c : N) : bool := (c =? 42) || (c =? 95).
Definition tick (c : N) : bool := (c =? 96) || (c =? 126).
Fixpoint settled (d : bytes) : bool :=
  match d with
  | [] => true
  | c :: t => (if star c then match t with e :: _ => e <? 128 | [] => false end else true)
              && (if c =? 91 then existsb (N.eqb 93) t else true)
              && (if tick c then negb (first_is 96 t) else true)
              && settled t
  end.
Definition busy_text (d : bytes) : bool :=
  negb (is_empty d) && no_newline_mark d && forallb busy_char d && single_spaced d && settled d && negb (first_is 96 d).
Definition quiet_code (d : bytes) : bool :=
  negb (is_empty d) && no_newline_mark d && single_spaced d && beqb (trim_space d) d
  && forallb (fun c => negb (existsb (N.eqb c) [0; 7; 9; 10; 13])) d && negb (first_is 96 d) && negb (last_is 96 d).
Inductive kind := KText | KEmphasis | KCode | KLink.
Definition kind_of (n : node) : option kind :=
  match n with
  | Text _ => Some KText
  | Elem x _ _ => if strong_element x || em_element x then Some KEmphasis else if code_element x then Some KCode
                  else if beqb x (b "a") then Some KLink else None
  | _ => None
  end.
Definition apart_kinds (k j : kind) : bool := match k, j with KText, KText | KEmphasis, KEmphasis | KCode, KCode => false | _, _ => true end.
(** The first and the last byte of what is written for a node *)
Definition first_byte (n : node) : N :=
  match n, kind_of n with Text (c :: _), _ => c | _, Some KCode => 96 | _, Some KLink => 91 | _, _ => 42 end.
Definition last_byte (n : node) : N :=
  match n, kind_of n with Text d, _ => last d 42 | _, Some KCode => 96 | _, Some KLink => 41 | _, _ => 42 end.
(** Delimiters [d] are recognised between these two: a letter inside, or nothing but white space and punctuation outside *)
Definition ascii (c : N) : bool := c <? 128.
Definition loose (outer : N) : bool := ascii outer && match class_of outer with Letter => false | _ => true end.
Definition recognised (d outer inner : N) : bool :=
  ascii inner && match class_of inner with Letter => (d =? 42) || loose outer | Punct => loose outer | Blank => false end.
(** An address that is written as it is *)
Definition plain_address (dest : bytes) : bool :=
  negb (is_empty dest) && no_newline_mark dest && negb (last_is 92 dest)
  && forallb (fun c => (32 <? c) && negb (existsb (N.eqb c) [40; 41; 60; 127])) dest.
(** Paragraphs (0) and headings (their level) *)
Definition part_level (x : bytes) : option nat := if beqb x (b "p") then Some O else level_of x.
Section paragraph.
Variable url : bytes -> bytes.
Variable cfg : config.
(** Emphasis starts and ends with a text; inside strong emphasis there may be emphasis, and the other way round. *)
Definition is_text (n : node) : bool := match n with Text _ => true | _ => false end.
Definition emphasis_content (x : bytes) (ks : list node) : bool :=
  is_text (hd (Comment []) ks) && is_text (last ks (Comment []))
  && forallb (fun n => match n with Elem y _ _ => negb (strong_element x && strong_element y) && negb (em_element x && em_element y) | _ => true end) ks.
(** One node: a text, emphasis, code or a link; [inner] says what may be in emphasis and in a link, if there may be more than a text. *)
Definition emphasis_char (x : bytes) : N := hd 0 (if strong_element x then strong_delimiter cfg else em_delimiter cfg).
Definition run (inner : option (list node -> bool)) (before after : N) (n : node) : bool :=
  match n, kind_of n with
  | Text d, _ => match inner with
                 | Some _ => busy_text d && negb ((before =? 42) && star (hd 0 d))   (* not beside the delimiters of emphasis *)
                 | None => quiet_text d
                 end
  | Elem x _ ks, Some KEmphasis =>
      match inner with
      | Some p => p ks && emphasis_content x ks
      | None => match ks with [Text d] => quiet_text d | _ => false end
      end
      && recognised (emphasis_char x) before (first_byte (hd (Comment []) ks)) && recognised (emphasis_char x) after (last_byte (last ks (Comment [])))
  | Elem _ _ [Text d], Some KCode => quiet_code d && (match inner with Some _ => true | None => forallb (fun c => negb (existsb (N.eqb c) [91; 92; 93])) d end)
  | Elem _ _ ks, Some KLink =>
      match inner with
      | Some p => p ks && negb (before =? 33) && is_empty (attribute n (b "title"))
                  && let h := attribute n (b "href") in beqb (trim_space h) h && plain_address (url h)
      | None => false
      end
  | _, _ => false
  end.
Fixpoint runs (inner : option (list node -> bool)) (prev : kind) (before : N) (ks : list node) : bool :=
  match ks with
  | [] => negb (before =? 32)
  | n :: r =>
      run inner before (match r with m :: _ => first_byte m | [] => 32 end) n
      && match kind_of n with Some k => apart_kinds prev k && runs inner k (last_byte n) r | None => false end
  end.
(** White space (of Unicode) at the ends is not allowed, and there is something. *)
Definition snug (ks : list node) : bool :=
  match ks with Text d :: _ => negb (is_space_rune (fst (decode_rune d))) | _ => true end
  && match last ks (Comment []) with Text d => negb (is_space_rune (fst (decode_last_rune d))) | _ => true end.
Definition filled (p : kind -> N -> list node -> bool) (ks : list node) : bool :=
  match ks with [] => false | n :: _ => negb (first_byte n =? 32) && snug ks && p KLink 32 ks end.
Definition link_content : list node -> bool := filled (runs None).
Definition paragraph : list node -> bool := filled (runs (Some link_content)).
(** Headings do not end with a number sign. *)
Definition ends_in_hash (ks : list node) : bool := match last ks (Comment []) with Text d => last_is 35 d | _ => false end.
Definition titled (k : nat) (ks : list node) : bool := Nat.eqb k 0 || negb (ends_in_hash ks).
(** White space as a browser shows it: any run of it is one space, also when it goes on in the next element; it is not shown at the start and
    at the end of a line.  [sp]: what is before ends with a space, or there is nothing. *)
Fixpoint flowed_text (sp : bool) (d : bytes) : bytes :=
  match d with
  | [] => []
  | c :: r => if separates c then (if sp then flowed_text true r else 32 :: flowed_text true r) else c :: flowed_text false r
  end.
Fixpoint ends_blank (sp : bool) (d : bytes) : bool := match d with [] => sp | c :: r => ends_blank (separates c) r end.
Fixpoint flowed (sp : bool) (n : node) : bool * node :=
  match n with
  | Text d => (ends_blank sp d, Text (flowed_text sp d))
  | Elem x a ks =>
      if code_element x then (false, n)
      else let '(sp', ks') := (fix go (sp : bool) (l : list node) := match l with
             | [] => (sp, [])
             | k :: r => let '(sp1, k') := flowed sp k in let '(sp2, r') := go sp1 r in (sp2, k' :: r')
             end) sp ks in (sp', Elem x a ks')
  | _ => (sp, n)
  end.
Fixpoint flowed_list (sp : bool) (l : list node) : bool * list node :=
  match l with
  | [] => (sp, [])
  | k :: r => let '(sp1, k') := flowed sp k in let '(sp2, r') := flowed_list sp1 r in (sp2, k' :: r')
  end.
Definition blank_text (n : node) : bool := match n with Text d => forallb separates d | _ => false end.
Fixpoint strip_start (d : bytes) : bytes := match d with c :: r => if separates c then strip_start r else d | [] => [] end.
Definition cut_start (ks : list node) : list node := match ks with n :: r => if blank_text n then r else ks | [] => [] end.
Definition cut_end (ks : list node) : list node :=
  match rev ks with
  | Text d :: q => let e := rev (strip_start (rev d)) in if is_empty e then rev q else rev q ++ [Text e]
  | _ => ks
  end.
Definition line (ks : list node) : list node := snd (flowed_list true (cut_start (cut_end ks))).
(** The text and the inline elements at the start of a group or of an item *)
Fixpoint inline_run (ks : list node) : list node :=
  match ks with n :: r => match kind_of n with Some _ => n :: inline_run r | None => [] end | [] => [] end.
Definition lead_in (ks : list node) : list node := let r := inline_run ks in if forallb blank_text r then [] else r.
Definition behind {A} (ps : list node) (l : list A) : list A := skipn (List.length ps) l.
(** Elements that a browser starts on a new line *)
Definition breaks (n : node) : bool :=
  match n with
  | Elem x _ _ => match part_level x with Some _ => true | None => name_in (map b ["hr"; "pre"; "ul"; "ol"]%string) x || holds_text x end
  | _ => false
  end.
(** The blocks of a document. Items without blocks are not seen. *)
Fixpoint article_blocks (n : node) : list (gblock (option styled)) :=
  match n with
  | Elem x _ ks =>
      let text ps := Some (flat_map (formatted url) (line ps)) in
      match part_level x with
      | Some O => [Paragraph (text ks)]
      | Some k => [Heading k (text ks)]
      | None =>
          if beqb x (b "hr") then [Rule]
          else if beqb x (b "pre") then match code_in n with Some (i, d) => [Code i (without_final_newline d)] | None => [] end
          else if name_in [b "ul"; b "ol"] x then [Items (list_number n) (nonempty_items (map article_blocks ks))]
          else let ps := lead_in ks in (if is_empty ps then [] else [Paragraph (text ps)]) ++ List.concat (behind ps (map article_blocks ks))
      end
  | _ => []
  end.
(** Nested groups with paragraphs and headings, rules, code and lists; there may be white space between blocks.  Groups that are blocks and
    items may start with a text. *)
Definition two_styled (c : N) (v : option styled) : bool := match v with Some t => beqb (map fst t) [c; c] | None => false end.
Fixpoint article (n : node) : bool :=
  match n with
  | Text d => forallb separates d
  | Other _ => true
  | Elem x _ ks =>
      let content js := let ps := lead_in js in
        (is_empty ps || paragraph (line ps) && match behind ps js with m :: _ => breaks m | [] => true end) && forallb (fun ok => ok) (behind ps (map article js)) in
      match part_level x with
      | Some k => paragraph (line ks) && titled k (line ks)
      | None =>
          if beqb x (b "hr") then is_empty ks && rule_line (horizontal_rule cfg)
          else if beqb x (b "pre") then match code_in n with Some (_, d) => readable_code d | None => false end
          else if name_in [b "ul"; b "ol"] x then
            forallb (fun k => match k with
                              | Text d => forallb separates d
                              | Elem y _ js => beqb y (b "li") && content js
                              | _ => false
                              end) ks
            && list_ok two_styled cfg n (nonempty_items (map article_blocks ks))
          else groups x && if holds_text x then content ks else forallb article ks
      end
  | _ => false
  end.
End paragraph.
