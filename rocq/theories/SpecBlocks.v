(** Specification vocabulary for the block structure of a document (C64): the blocks of a page, and a reader that finds the blocks
    of a markdown text (CommonMark 0.31 sections 4 and 5, without the content of block quotes). *)
From Coq Require Import List NArith ZArith Bool String.
From Verif Require Import Bytes Escape SpecEscape Dom SpecDom RenderText SpecText SpecText2 Engine CommonMark SpecPipeline SpecNode SpecPlain.
Import ListNotations.
Open Scope N_scope.
Open Scope list_scope.

(** Blocks; [A] are the texts of paragraphs and headings. *)
Inductive gblock (A : Type) :=
| Paragraph (text : A)
| Heading (level : nat) (text : A)
| Rule
| Code (info text : bytes)
| Items (first : option N) (items : list (list (gblock A)))   (* a list; ordered ones have a first number *)
| Unread.                       (* a block that the reader does not read: quote, indented code, HTML, link definition *)
Arguments Paragraph {A} text.
Arguments Heading {A} level text.
Arguments Rule {A}.
Arguments Code {A} info text.
Arguments Items {A} first items.
Arguments Unread {A}.
(** Blocks with plain texts *)
Notation block := (gblock bytes).

(** ** The blocks of a page *)
(** The words of a text with one space between them, as a browser shows it (space, tab and line ends separate) *)
Definition separates (c : N) : bool := (c =? 32) || (c =? 9) || (c =? 10) || (c =? 13).
Fixpoint words (s : bytes) : list bytes :=
  match s with
  | [] => [[]]
  | c :: t => if separates c then [] :: words t
              else match words t with w :: r => (c :: w) :: r | [] => [[c]] end
  end.
Definition one_spaced (s : bytes) : bytes := join [32] (filter (fun w => negb (is_empty w)) (words s)).
(** What a browser shows of a tree: no invisible nodes, and texts that are then beside each other are one. *)
Definition beside (n : node) (r : list node) : list node :=
  match n, r with
  | Text d, Text e :: r' => Text (d ++ e) :: r'
  | _, _ => n :: r
  end.
Fixpoint shown (n : node) : node :=
  let all := fix all (ks : list node) : list node :=
    match ks with [] => [] | k :: r => if invisible k then all r else beside (shown k) (all r) end in
  match n with
  | Elem x a ks => Elem x a (all ks)
  | Doc ks => Doc (all ks)
  | _ => n
  end.
Fixpoint shown_all (ks : list node) : list node :=
  match ks with [] => [] | k :: r => if invisible k then shown_all r else beside (shown k) (shown_all r) end.
Definition heading_names_of : list (bytes * nat) := [(b "h1", 1%nat); (b "h2", 2%nat); (b "h3", 3%nat); (b "h4", 4%nat); (b "h5", 5%nat); (b "h6", 6%nat)].
Definition level_of (x : bytes) : option nat := option_map snd (find (fun p => beqb x (fst p)) heading_names_of).
(** Elements that only group what they contain *)
Definition groups (x : bytes) : bool :=
  negb (name_in (rendered_names ++ hidden_names ++ map b
    ["area"; "base"; "col"; "command"; "embed"; "keygen"; "param"; "track"; "wbr"; "span"; "li"; "#text"; "#document"; "#doctype"]%string) x).
(** Elements that a browser shows as blocks *)
Definition holds_text (x : bytes) : bool := name_in (map b
  ["p"; "div"; "section"; "article"; "main"; "header"; "footer"; "nav"; "aside"; "address"; "form"; "fieldset"; "figure"; "figcaption"; "details"; "dialog"; "hgroup";
   "dl"; "dt"; "dd"]%string) x.
(** A class attribute that is missing or names a language of letters and digits *)
Definition letter_or_digit (c : N) : bool := in_range 48 57 c || in_range 65 90 c || in_range 97 122 c.
Definition language (n : node) (lang : bytes) : bool :=
  match n with
  | Elem _ a _ => let class := attribute n (b "class") in
      is_empty class && is_empty lang
      || beqb class (b "language-" ++ lang) && negb (is_empty lang) && forallb letter_or_digit lang
  | _ => false
  end.
Definition language_in (n : node) : bytes := skipn (List.length (b "language-")) (attribute n (b "class")).
(** A preformatted element with a text, in a code element or not: the language and the text *)
Definition code_in (n : node) : option (bytes * bytes) :=
  match kids n with
  | [Text d] => if language n [] then Some ([], d) else None
  | [Elem y a [Text d]] =>
      let c := Elem y a [Text d] in
      if beqb y (b "code") && negb (is_empty d) && language n [] && language c (language_in c) then Some (language_in c, d) else None
  | _ => None
  end.
Definition without_final_newline (d : bytes) : bytes := if last_is 10 d then removelast d else d.
(** A text that a reader can get back: no ampersand, bell and U+F002, and no other white space (such as U+00A0) at its ends *)
Definition readable_block (t : bytes) : bool := readable t && beqb (trim_space (plain t)) (plain t).
Definition readable_code (d : bytes) : bool := no_newline_mark d && forallb (fun c => negb (c =? 7)) d.
Definition some_text (f : bytes -> block) (t : bytes) : list block := if is_empty t then [] else [f (plain t)].
(** The text of a heading *)
Definition heading_in (ks : list node) : option bytes :=
  match ks with [] => Some [] | [Text d] => Some (one_spaced d) | _ => None end.
(** The number of the first item of a list: the attribute of an ordered one, if there is one *)
Definition list_number (n : node) : option N :=
  if beqb (node_name n) (b "ul") then None
  else let v := attribute n (b "start") in
       Some (if is_empty v then 1 else match digits_value 0 v with Some k => k | None => 1 end).
(** The blocks of a tree as it is shown. Items without blocks are not seen. *)
Definition nonempty_items {A} (l : list (list (gblock A))) : list (list (gblock A)) := filter (fun it => negb (is_empty it)) l.
Fixpoint blocks_of (n : node) : list block :=
  match n with
  | Text d => some_text Paragraph (one_spaced d)
  | Elem x a ks =>
      match level_of x with
      | Some k => match heading_in ks with Some t => some_text (Heading k) t | None => [] end
      | None =>
          if beqb x (b "hr") then [Rule]
          else if beqb x (b "pre") then match code_in n with Some (i, d) => [Code i (without_final_newline d)] | None => [] end
          else if name_in [b "ul"; b "ol"] x then [Items (list_number n) (nonempty_items (map blocks_of ks))]
          else flat_map blocks_of ks
      end
  | _ => []
  end.
(** What may follow a bullet [c]: two more of the same character, or a thematic break of them, would make the line a thematic break.
    [r]: the thematic break that is written, [two]: says that a text is two of the character *)
Definition after_bullet {A} (two : N -> A -> bool) (c : N) (r : bytes) (item : list (gblock A)) : bool :=
  (c =? 43) || match item with
               | Paragraph v :: _ | Heading _ v :: _ => negb (two c v)
               | Rule :: _ => negb (first_is c r)
               | _ => true
               end.
Definition two_of (c : N) (v : bytes) : bool := beqb v [c; c].
(** The numbers of an ordered list have nine digits at most. *)
Definition list_ok {A} (two : N -> A -> bool) (cfg : config) (n : node) (items : list (list (gblock A))) : bool :=
  negb (is_empty items)
  && if beqb (node_name n) (b "ul") then forallb (after_bullet two (hd 0 (bullet_marker cfg)) (horizontal_rule cfg)) items
     else let v := attribute n (b "start") in
          forallb is_digit v && Nat.leb (List.length v) 9
          && match list_number n with Some k => k + N.of_nat (List.length items) <=? 1000000000 | None => false end.
(** Pages, as they are shown: nested groups with headings, paragraphs, rules, code and lists; blank texts may be anywhere between
    blocks.  A text is a paragraph if blocks or the borders of groups that are blocks are on both sides of it; empty headings do not
    count as blocks there.  The state says that there was a text and no block yet after it. *)
Section pages.
Variable cfg : config.
Fixpoint page (text : bool) (n : node) : option bool :=
  let pages := fix pages (text : bool) (ks : list node) : option bool :=
    match ks with [] => Some text | k :: r => match page text k with Some text' => pages text' r | None => None end end in
  match n with
  | Text d => if text then None else if forallb separates d then Some false else if readable_block (one_spaced d) then Some true else None
  | Other _ => Some text
  | Elem x a ks =>
      match level_of x with
      | Some _ => match heading_in ks with
                  | Some t => if readable_block t && negb (text && is_empty t) then Some false else None
                  | None => None
                  end
      | None =>
          if beqb x (b "hr") then if is_empty ks then Some false else None
          else if beqb x (b "pre") then match code_in n with Some (_, d) => if readable_code d then Some false else None | None => None end
          else if name_in [b "ul"; b "ol"] x then
            if forallb (fun k => match k with
                                 | Text d => forallb separates d
                                 | Elem y _ js => beqb y (b "li") && match pages false js with Some _ => true | None => false end
                                 | _ => false
                                 end) ks
               && list_ok two_of cfg n (nonempty_items (map blocks_of ks))
            then Some false else None
          else if groups x then
            if holds_text x then match pages false ks with Some _ => Some false | None => None end
            else pages text ks
          else None
      end
  | _ => None
  end.
Fixpoint pages (text : bool) (ks : list node) : option bool :=
  match ks with [] => Some text | k :: r => match page text k with Some text' => pages text' r | None => None end end.
End pages.
Definition is_page (cfg : config) (ks : list node) : bool := match pages cfg false (shown_all ks) with Some _ => true | None => false end.

(** ** The reader *)
Definition blank (l : bytes) : bool := forallb (fun c => (c =? 32) || (c =? 9)) l.
(** At least four columns of white space before the text *)
Fixpoint indented (col : nat) (l : bytes) : bool :=
  Nat.leb 4 col || match l with c :: t => if c =? 32 then indented (S col) t else (c =? 9) | [] => false end.
(** ATX headings: the number of signs, and what follows them without white space around it and without the closing sequence *)
Definition drop_blanks : bytes -> bytes := fix go (s : bytes) : bytes :=
  match s with c :: t => if (c =? 32) || (c =? 9) then go t else s | [] => [] end.
Definition drop_last_blanks (s : bytes) : bytes := rev (drop_blanks (rev s)).
Definition drop_closing (s : bytes) : bytes :=
  match drop_run 35 (rev s) with
  | [] => []
  | c :: t => if (c =? 32) || (c =? 9) then rev (drop_blanks t) else s
  end.
Definition atx_text (s : bytes) : bytes := drop_closing (drop_last_blanks (drop_blanks (drop_run 35 s))).
(** A code fence: there are no backticks behind one of backticks. *)
Definition fence_starts (s : bytes) : bool := code_fence s && negb (first_is 96 s && existsb (N.eqb 96) (drop_run 96 s)).
(** A link reference definition starts with brackets on one line, and a colon. *)
Definition definition_starts (s : bytes) : bool :=
  match s with c :: t => (c =? 91) && match until_bracket O false t with Some (_, u) => first_is 58 u | None => false end | [] => false end.
Definition starts_html (s : bytes) : bool := match s with c :: _ => c =? 60 | [] => false end.
Definition unread (s : bytes) : bool :=
  block_quote s || bullet_item s || ordered_item s || definition_starts s || starts_html s.
(** The lines of a paragraph behind its first one: up to a blank line or a line that starts something else. A setext underline
    makes it a heading. *)
Fixpoint continued (ls : list bytes) : list bytes * option nat * list bytes :=
  match ls with
  | [] => ([], None, [])
  | l :: r =>
      let s := skip_spaces l in
      if blank l then ([], None, ls)
      else if negb (indented 0 l) && setext_underline s then ([], Some (if first_is 61 s then 1%nat else 2%nat), r)
      else if negb (indented 0 l) && (thematic_break_tabs s || atx_heading s || fence_starts s || unread s) then ([], None, ls)
      else let '(p, u, e) := continued r in (s :: p, u, e)
  end.
(** The comments that separate two lists: an HTML block of one line *)
Definition comment_line (s : bytes) : bool :=
  has_prefix (b "<!--") s && has_prefix (b ">--") (rev s) && Nat.leb 7 (List.length s)
  && forallb (fun c => negb (c =? 45)) (firstn (List.length s - 7) (skipn 4 s)).
(** The marker of a list item: the number, the character that must be the same for all items of a list, and what follows *)
Fixpoint digits_run (s : bytes) : bytes :=
  match s with c :: t => if is_digit c then c :: digits_run t else [] | [] => [] end.
Definition marker (s : bytes) : option (option N * N * bytes) :=
  match s with
  | [] => None
  | c :: t =>
      if (c =? 45) || (c =? 43) || (c =? 42) then Some (None, c, t)
      else let ds := digits_run s in
           match digits_value 0 ds, skipn (List.length ds) s with
           | Some n, d :: r => if negb (is_empty ds) && Nat.leb (List.length ds) 9 && ((d =? 46) || (d =? 41)) then Some (Some n, d, r) else None
           | _, _ => None
           end
  end.
(** The start of an item: also the number of columns before the content, and the first line of the content. Items that begin with
    a blank line, a tab or indented code are not read. *)
Definition item_start (l : bytes) : option (option N * N * nat * bytes) :=
  match marker (skip_spaces l) with
  | Some (n, d, t) =>
      let s := skip_spaces t in
      let k := (List.length t - List.length s)%nat in
      if Nat.leb 1 k && Nat.leb k 4 && negb (blank s) && negb (first_is 9 s) then Some (n, d, (List.length l - List.length s)%nat, s) else None
  | None => None
  end.
Definition same_list (n m : option N) (d e : N) : bool :=
  match n, m with None, None => d =? e | Some _, Some _ => d =? e | _, _ => false end.
(** The further lines of an item: blank ones, and those that are indented far enough *)
Fixpoint item_more (w : nat) (ls : list bytes) : list bytes * list bytes :=
  match ls with
  | [] => ([], [])
  | l :: r =>
      if has_prefix (repeat 32 w) l then let '(m, e) := item_more w r in (skipn w l :: m, e)
      else if blank l then let '(m, e) := item_more w r in ([] :: m, e)
      else ([], ls)
  end.
(** A line directly behind an item that may belong to its last paragraph (which is not read) *)
Definition lazy (item rest : list bytes) : bool :=
  negb (blank (last item [])) && match rest with l :: _ => match item_start l with Some _ => false | None => true end | [] => false end.
Section reader.
Context {A : Type}.
Variable decode : bytes -> A.           (* reads the text of a paragraph or of a heading *)
Fixpoint read_lines (fuel : nat) (ls : list bytes) : list (gblock A) :=
  match fuel with
  | O => [Unread]
  | S f =>
      match ls with
      | [] => []
      | l :: r =>
          let s := skip_spaces l in
          if blank l then read_lines f r
          else if indented 0 l then Unread :: read_lines f r
          else if thematic_break_tabs s then Rule :: read_lines f r
          else if atx_heading s then Heading (run_length 35 s) (decode (atx_text s)) :: read_lines f r
          else if fence_starts s then
            match read_fenced (hd 0 s) (s :: r) with
            | Some (info, code, rest) => Code info (join [10] code) :: read_lines f rest
            | None => [Unread]
            end
          else if comment_line s then read_lines f r
          else match item_start l with
          | Some (n, d, w, t) =>
              let '(m, rest) := item_more w r in
              if lazy (t :: m) rest then [Unread]
              else
                let item := read_lines f (t :: m) in
                let others := read_lines f rest in
                match rest, others with
                | l2 :: _, Items n2 items :: bs =>
                    match item_start l2 with
                    | Some (n', d', _, _) => if same_list n n' d d' then Items n (item :: items) :: bs else Items n [item] :: others
                    | None => Items n [item] :: others
                    end
                | _, _ => Items n [item] :: others
                end
          | None =>
              if unread s then Unread :: read_lines f r
              else let '(p, u, e) := continued r in
                   let t := decode (drop_last_blanks (join [10] (s :: p))) in
                   (match u with Some k => Heading k t | None => Paragraph t end) :: read_lines f e
          end
      end
  end.
Definition weight (ls : list bytes) : nat := fold_right (fun l n => S (List.length l + n)) O ls.
Definition read_all_blocks (s : bytes) : list (gblock A) := let ls := split_on 10 s in read_lines (S (weight ls)) ls.
End reader.
(** With plain texts *)
Definition read_blocks : bytes -> list block := read_all_blocks (read_text 0).

(** A line that is a thematic break, without white space at its end *)
Definition rule_line (r : bytes) : bool := thematic_break r && negb (existsb (N.eqb 10) r) && negb (last_is 32 r).
