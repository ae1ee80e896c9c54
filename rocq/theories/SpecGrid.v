(** Specification of the grid of an HTML table with cells over several rows and columns (C57). Nothing here refers to the functions
    that render tables. *)
From Coq Require Import List NArith ZArith Bool String Arith.
From Verif Require Import Bytes Dom SpecTable.
Import ListNotations.
Open Scope list_scope.

(** A position of the grid: the cell that starts here, a position covered by a cell that starts elsewhere, or nothing *)
Inductive slot (A : Type) := Own (a : A) | Merged (a : A) | Blank.
Arguments Own {A} a. Arguments Merged {A} a. Arguments Blank {A}.

Section grid.
Context {A : Type}.
(** A cell with its rowspan and colspan (at least one) *)
Definition gcell := (A * nat * nat)%type.
(** The cell column by column; the flag marks the second and further columns, which must directly follow. *)
Definition pieces (c : gcell) : list (bool * A * nat) :=
  let '(a, r, k) := c in (false, a, r) :: repeat (true, a, r) (k - 1).
Definition slot_of (p : bool * A * nat) : slot A := let '(j, a, _) := p in if j : bool then Merged a else Own a.
(** What is left of a cell for the rows below: Some (k, a) = the column is covered by a in the next k + 1 rows *)
Definition left_over (p : bool * A * nat) : option (nat * A) :=
  let '(_, a, r) := p in match r with S (S k) => Some (k, a) | _ => None end.
Definition one_less (c : nat * A) : option (nat * A) := match fst c with S k => Some (k, snd c) | O => None end.
Definition is_free (c : option (nat * A)) : bool := match c with None => true | Some _ => false end.

(** One row: the cells take the free columns from left to right. [None]: a cell over several columns meets a covered column (the
    HTML standard calls this a table model error). *)
Fixpoint place_row (cover : list (option (nat * A))) (ps : list (bool * A * nat))
  : option (list (slot A) * list (option (nat * A))) :=
  let add s k := option_map (fun '(row, next) => (s :: row, k :: next)) in
  match cover with
  | [] => Some (map slot_of ps, map left_over ps)
  | Some c :: rest =>
      match ps with
      | (true, _, _) :: _ => None
      | _ => add (Merged (snd c)) (one_less c) (place_row rest ps)
      end
  | None :: rest =>
      match ps with
      | p :: ps => add (slot_of p) (left_over p) (place_row rest ps)
      | [] => if forallb is_free rest then Some ([], []) else add Blank None (place_row rest [])
      end
  end.
Fixpoint html_grid (cover : list (option (nat * A))) (rows : list (list gcell)) : option (list (list (slot A))) :=
  match rows with
  | [] => Some []
  | r :: rs =>
      match place_row cover (flat_map pieces r) with
      | None => None
      | Some (row, next) => option_map (cons row) (html_grid next rs)
      end
  end.

(** No cell reaches below the last row. *)
Definition in_range (rows : list (list gcell)) : Prop :=
  forall y row a r k, nth_error rows y = Some row -> In (a, r, k) row -> (y + r <= List.length rows)%nat.
(** A cell that starts beside a cell over several rows does not end below it. *)
Definition nested (rows : list (list gcell)) : Prop :=
  forall y1 y2 row1 row2 a1 r1 k1 a2 r2 k2, (y1 < y2)%nat -> nth_error rows y1 = Some row1 -> nth_error rows y2 = Some row2 ->
  In (a1, r1, k1) row1 -> In (a2, r2, k2) row2 -> (y2 < y1 + r1)%nat -> (y2 + r2 <= y1 + r1)%nat.
(** In each row at most one cell goes over several columns, and no cell to its right over several rows. *)
Definition one_wide (row : list gcell) : Prop :=
  forall u a r k v, row = u ++ (a, r, k) :: v -> (1 < k)%nat -> Forall (fun c : gcell => let '(_, r, k) := c in r = 1 /\ k = 1)%nat v.
End grid.

(** The value of rowspan or colspan: a number of at least one, otherwise one *)
Definition span_of (key : bytes) (n : node) : nat :=
  match n with
  | Elem _ a _ =>
      match find (fun kv => beqb (fst kv) key) a with
      | Some (_, v) => match atoi v with Some z => Nat.max 1 (Z.to_nat z) | None => 1 end
      | None => 1
      end
  | _ => 1
  end%nat.
(** A cell of the source with its rendered text *)
Definition grid_cell (p : place) (s : bytes) : bytes * nat * nat := (s, span_of (b "rowspan") (snd p), span_of (b "colspan") (snd p)).
Definition grid_cells (srcs : list (list place)) (texts : list (list bytes)) : list (list (bytes * nat * nat)) :=
  map (fun q => map (fun pt => grid_cell (fst pt) (snd pt)) (combine (fst q) (snd q))) (combine srcs texts).

(** What is written into a position: [mirror] says that the text of a cell is repeated in all its positions. *)
Definition slot_shown (mirror : bool) (s : slot bytes) (w : bytes) : Prop :=
  match s with
  | Own t => holds t w
  | Merged t => if mirror then holds t w else padded [] w
  | Blank => padded [] w
  end.
Definition grid_row_shown (mirror : bool) (g : list (slot bytes)) (row : list bytes) : Prop :=
  exists front fill, row = front ++ fill /\ Forall2 (slot_shown mirror) g front /\ Forall (padded []) fill.
(** A position without any character *)
Definition slot_bare (mirror : bool) (s : slot bytes) : Prop :=
  match s with Own t => ink t = [] | Merged t => mirror = true -> ink t = [] | Blank => True end.
(** The rows show the rows of the grid one by one. Rows without any character may be left out if [dropping]. *)
Inductive grid_shown (mirror dropping : bool) : list (list (slot bytes)) -> list (list bytes) -> Prop :=
| Grid_nil : grid_shown mirror dropping [] []
| Grid_row : forall g row gs rows, grid_row_shown mirror g row -> grid_shown mirror dropping gs rows -> grid_shown mirror dropping (g :: gs) (row :: rows)
| Grid_drop : forall g gs rows, dropping = true -> Forall (slot_bare mirror) g -> grid_shown mirror dropping gs rows -> grid_shown mirror dropping (g :: gs) rows.
