(** Specification vocabulary for tables (C34, C35, C55): the lines of a table, how GitHub flavoured markdown reads a line, where the
    cells come from. Nothing here refers to the functions that render tables. *)
From Coq Require Import List NArith ZArith Bool String.
From Verif Require Import Bytes Dom SpecDom.
Import ListNotations.
Open Scope N_scope.
Open Scope list_scope.

(** ** The text of a table *)
(** A line: the cells with a bar before the first and after each. *)
Definition bar_line (cells : list bytes) : bytes :=
  match cells with [] => [] | _ => [124] ++ List.concat (map (fun c => c ++ [124]) cells) end.
(** The header, the delimiter row, the other rows, the caption *)
Definition table_layout (header under : list bytes) (body : list (list bytes)) (cap : option bytes) : bytes :=
  [10; 10] ++ bar_line header ++ [10] ++ bar_line under ++ [10] ++ List.concat (map (fun r => bar_line r ++ [10]) body)
  ++ (match cap with Some s => [10; 10] ++ s | None => [] end) ++ [10; 10].
(** A cell of the delimiter row: hyphens, a colon at either end sets the alignment. *)
Definition delimiter_cell (s : bytes) : Prop :=
  exists l k r, s = l ++ repeat 45 (S k) ++ r /\ (l = [] \/ l = [58]) /\ (r = [] \/ r = [58]).
Definition says_left (s : bytes) : bool := has_prefix [58] s.
Definition says_right (s : bytes) : bool := has_suffix [58] s.

(** How a reader splits a line: a bar that does not follow a backslash ends a cell; p is the byte before. *)
Fixpoint split_bars (p : N) (s : bytes) : list bytes :=
  match s with
  | [] => [[]]
  | c :: t => if (c =? 124) && negb (p =? 92) then [] :: split_bars c t
              else match split_bars c t with [] => [[c]] | h :: r => (c :: h) :: r end
  end.
Definition read_line (s : bytes) : list bytes := removelast (split_bars 0 (tl s)).
(** A cell that a reader takes as one *)
Definition one_cell (s : bytes) : Prop :=
  ~ In 10 s /\ forall u v, s = u ++ 124 :: v -> exists w, u = w ++ [92].

(** The text in its cell, with spaces around it *)
Definition padded (s w : bytes) : Prop := exists i j, w = repeat 32 i ++ s ++ repeat 32 j.

(** ** Where the cells come from *)
(** A node below another one, with the names of its ancestors *)
Definition place := (list bytes * node)%type.
Fixpoint places (anc : list bytes) (n : node) : list place :=
  match n with
  | Elem x _ ks => flat_map (fun k => (x :: anc, k) :: places (x :: anc) k) ks
  | Doc ks => flat_map (fun k => (b "#document" :: anc, k) :: places (b "#document" :: anc) k) ks
  | _ => []
  end.
Definition is_named (l : list bytes) (p : place) : bool := existsb (beqb (node_name (snd p))) l.
Definition rows_below (p : place) : list place := filter (is_named [b "tr"]) (places (fst p) (snd p)).
Definition cells_below (p : place) : list place := filter (is_named [b "th"; b "td"]) (places (fst p) (snd p)).
(** The header row, if the table has a thead with a row *)
Definition thead_row (table : place) : option place :=
  match find (is_named [b "thead"]) (places (fst table) (snd table)) with
  | Some t => find (is_named [b "tr"]) (places (fst t) (snd t))
  | None => None
  end.
(** The header of the table: that row, otherwise the parent of the first th *)
Definition header_of (table h : place) : Prop :=
  thead_row table = Some h
  \/ thead_row table = None /\ exists u th v, places (fst table) (snd table) = u ++ th :: v
     /\ Forall (fun p => is_named [b "th"] p = false) u /\ is_named [b "th"] th = true
     /\ In h (table :: u) /\ fst th = node_name (snd h) :: fst h /\ In (snd th) (kids (snd h)).
Definition no_header (table : place) : Prop :=
  thead_row table = None /\ Forall (fun p => is_named [b "th"] p = false) (places (fst table) (snd table)).
(** The cells row by row in the order in which they are shown: the header first, then the other rows; a table without header gets an
    empty one. (The header need not be a tr if the tree does not come from the parser.) *)
Definition shown_order (table : place) (srcs : list (list place)) : Prop :=
  (exists h, header_of table h /\
     ((exists pre post, rows_below table = pre ++ h :: post /\ srcs = map cells_below (h :: pre ++ post))
      \/ is_named [b "tr"] h = false /\ srcs = map cells_below (h :: rows_below table)))
  \/ no_header table /\ srcs = [] :: map cells_below (rows_below table).

(** The row whose cells set the alignments: the header, in a table without header the first row *)
Definition aligning_row (table : place) (srcs : list (list place)) (row : list place) : Prop :=
  (exists h, header_of table h) /\ row = hd [] srcs \/ no_header table /\ row = hd [] (tl srcs).
(** The delimiter cell u has the colons that the align attribute of a cell asks for. *)
Definition aligned_as (p : place) (u : bytes) : Prop :=
  let v := node_attr (snd p) (b "align") [] in
  says_left u = existsb (beqb v) [b "left"; b "center"] /\ says_right u = existsb (beqb v) [b "right"; b "center"].

(** [matched fit xs ys]: the xs are found in order among the ys. *)
Inductive matched {A B : Type} (fit : A -> B -> Prop) : list A -> list B -> Prop :=
| Matched_nil : forall ys, matched fit [] ys
| Matched_take : forall x y xs ys, fit x y -> matched fit xs ys -> matched fit (x :: xs) (y :: ys)
| Matched_skip : forall y xs ys, matched fit xs ys -> matched fit xs (y :: ys).
(** The characters of a rendered text without the spaces around it, the line ends and the escaping markers *)
Definition ink (s : bytes) : bytes := filter (fun c => negb (c =? 7) && negb (c =? 10)) (trim_space s).
(** The written cell w shows the rendered text s. *)
Definition holds (s w : bytes) : Prop := exists mid, padded mid w /\ subsequence (ink s) mid.
(** The row shows the cells: all of them in order, among other ones; or just them, followed by empty ones *)
Definition row_among (src row : list bytes) : Prop := matched holds src row.
Definition row_exact (src row : list bytes) : Prop :=
  exists front fill, row = front ++ fill /\ Forall2 holds src front /\ Forall (padded []) fill.
(** [shown fit extra srcs rows]: the rows show the sources one by one; only sources without text may be left out; rows without source
    come last, if [extra] allows them. *)
Inductive shown (fit : list bytes -> list bytes -> Prop) (extra : bool) : list (list bytes) -> list (list bytes) -> Prop :=
| Shown_nil : forall rows, extra = true \/ rows = [] -> shown fit extra [] rows
| Shown_row : forall src row srcs rows, fit src row -> shown fit extra srcs rows -> shown fit extra (src :: srcs) (row :: rows)
| Shown_drop : forall src srcs rows, Forall (fun x => ink x = []) src -> shown fit extra srcs rows -> shown fit extra (src :: srcs) rows.
(** An element whose rowspan and colspan attributes, if any, are not numbers above one *)
Definition no_span (n : node) : Prop :=
  match n with
  | Elem _ a _ => forall k v, In (k, v) a -> k = b "rowspan" \/ k = b "colspan" ->
      match atoi v with Some z => (z <= 1)%Z | None => True end
  | _ => True
  end.

(** ** Bars outside of texts *)
Definition has_bar (s : bytes) : bool := existsb (N.eqb 124) s.
Fixpoint no_bar (n : node) : bool :=
  match n with Text d => negb (has_bar d) | Elem _ _ ks | Doc ks => forallb no_bar ks | _ => true end.
Definition code_names : list bytes := [b "pre"; b "code"; b "var"; b "samp"; b "kbd"; b "tt"].
(** Bars stand only in texts outside of code: not in an attribute, not in code. *)
Fixpoint bars_in_text (n : node) : bool :=
  match n with
  | Elem x a ks => forallb (fun kv => negb (has_bar (snd kv))) a && (negb (existsb (beqb x) code_names) || forallb no_bar ks)
                   && forallb bars_in_text ks
  | Doc ks => forallb bars_in_text ks
  | _ => true
  end.
