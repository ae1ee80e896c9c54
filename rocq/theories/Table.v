(** Model of plugin/table. No proofs in this file.

    Go identifies the header row by its pointer; the model by its path below the table. dom.FindFirstNode and dom.FindAllNodes
    (recalled) visit the descendants in document order, without the start node. *)
From Coq Require Import List NArith ZArith Bool String.
From Verif Require Import Bytes TextUtils Escape Dom DomUtils RenderText Engine CommonMark.
Import ListNotations.
Open Scope N_scope.
Open Scope list_scope.

(** plugin/table/table.go:140-150  tablePlugin *)
Record table_config := {
  span_behavior : bytes;
  newline_behavior : bytes;
  skip_empty_rows : bool;
  promote_first_row : bool;
  convert_presentation : bool;
  cell_padding : bytes
}.
(** plugin/table/table.go:26-138: the options *)
Inductive table_option :=
| OSpan (v : bytes) | ONewline (v : bytes) | OPadding (v : bytes)
| OSkipEmpty (v : bool) | OPromote (v : bool) | OPresentation (v : bool).
Definition table_defaults : table_config := {|
  span_behavior := []; newline_behavior := []; skip_empty_rows := false; promote_first_row := false;
  convert_presentation := false; cell_padding := b "aligned" |}.
Definition apply_table_option (o : table_option) (c : table_config) : table_config * option bytes :=
  let mk s n k r p d := {| span_behavior := s; newline_behavior := n; skip_empty_rows := k; promote_first_row := r;
                           convert_presentation := p; cell_padding := d |} in
  let with_ s n k r p d := (mk s n k r p d, None : option bytes) in
  match o with
  | OSpan v => if is_empty v then (c, None)
               else if one_of [b "empty"; b "mirror"] v
               then with_ v (newline_behavior c) (skip_empty_rows c) (promote_first_row c) (convert_presentation c) (cell_padding c)
               else (c, Some (b "span cell behavior"))
  | ONewline v => if is_empty v then (c, None)
               else if one_of [b "skip"; b "preserve"] v
               then with_ (span_behavior c) v (skip_empty_rows c) (promote_first_row c) (convert_presentation c) (cell_padding c)
               else (c, Some (b "newline behavior"))
  | OPadding v => if is_empty v
               then with_ (span_behavior c) (newline_behavior c) (skip_empty_rows c) (promote_first_row c)
                          (convert_presentation c) (b "aligned")
               else if one_of [b "aligned"; b "minimal"; b "none"] v
               then with_ (span_behavior c) (newline_behavior c) (skip_empty_rows c) (promote_first_row c)
                          (convert_presentation c) v
               else (c, Some (b "cell padding behavior"))
  | OSkipEmpty v => with_ (span_behavior c) (newline_behavior c) v (promote_first_row c) (convert_presentation c) (cell_padding c)
  | OPromote v => with_ (span_behavior c) (newline_behavior c) (skip_empty_rows c) v (convert_presentation c) (cell_padding c)
  | OPresentation v => with_ (span_behavior c) (newline_behavior c) (skip_empty_rows c) (promote_first_row c) v (cell_padding c)
  end.
(** plugin/table/table.go:165-177  NewTablePlugin: the first error ends the loop *)
Fixpoint apply_table_options (os : list table_option) (c : table_config) : table_config * option bytes :=
  match os with
  | [] => (c, None)
  | o :: r => match apply_table_option o c with
              | (c', Some e) => (c', Some e)
              | (c', None) => apply_table_options r c'
              end
  end.

(** A descendant: its path from the table (last index first), the names of its ancestors (nearest first) and the node. *)
Record entry := { e_path : list nat; e_anc : list bytes; e_node : node }.
Fixpoint descendants (path : list nat) (anc : list bytes) (n : node) : list entry :=
  match n with
  | Elem x _ ks =>
      (fix go (i : nat) (l : list node) : list entry :=
         match l with
         | [] => []
         | k :: r => {| e_path := i :: path; e_anc := x :: anc; e_node := k |} :: descendants (i :: path) (x :: anc) k ++ go (S i) r
         end) O ks
  | Doc ks =>
      (fix go (i : nat) (l : list node) : list entry :=
         match l with
         | [] => []
         | k :: r => {| e_path := i :: path; e_anc := b "#document" :: anc; e_node := k |}
                     :: descendants (i :: path) (b "#document" :: anc) k ++ go (S i) r
         end) O ks
  | _ => []
  end.
Definition below (x : entry) : list entry := descendants (e_path x) (e_anc x) (e_node x).
Definition entry_is (l : list bytes) (x : entry) : bool := name_in l (node_name (e_node x)).
Definition same_path (p q : list nat) : bool := if list_eq_dec Nat.eq_dec p q then true else false.

(** plugin/table/1_select.go:8-33  selectHeaderRowNode; the parent of the first th may be the table itself *)
Definition header_row (table : entry) : option entry :=
  let all := table :: below table in
  let by_th :=
    match find (entry_is [b "th"]) (below table) with
    | None => None
    | Some th => find (fun x => same_path (e_path x) (tl (e_path th))) all
    end in
  match find (entry_is [b "thead"]) (below table) with
  | Some thead => match find (entry_is [b "tr"]) (below thead) with
                  | Some tr => Some tr
                  | None => by_th
                  end
  | None => by_th
  end.
(** plugin/table/1_select.go:34-53  selectNormalRowNodes *)
Definition normal_rows (table : entry) (header : option entry) : list entry :=
  filter (fun x => entry_is [b "tr"] x
                   && negb (match header with Some h => same_path (e_path x) (e_path h) | None => false end))
         (table :: below table).

(** plugin/table/2_collect.go:23-44  hasProblematicChildNode *)
Definition problematic_kids : list bytes := heading_names ++ [b "table"; b "hr"; b "ul"; b "ol"; b "blockquote"].
(** plugin/table/2_collect.go:46-70  hasProblematicParentNode *)
Definition problematic_parents : list bytes := [b "a"] ++ bold_names ++ italic_names ++ strike_names.

(** plugin/table/utils.go:46-61  getNumberAttributeOr; strconv.Atoi refuses numbers beyond 64 bits *)
Fixpoint attr_get (key : bytes) (a : attrs) : option bytes :=
  match a with [] => None | (k, v) :: r => if beqb k key then Some v else attr_get key r end.
Definition number_attr (n : node) (key : bytes) : nat :=
  match n with
  | Elem _ a _ => match attr_get key a with
                  | Some v => match atoi v with Some z => if (z <? 1)%Z then 1%nat else Z.to_nat z | None => 1%nat end
                  | None => 1%nat
                  end
  | _ => 1%nat
  end.
(** plugin/table/utils.go:63-108  modification (y, x, data), calculateModifications *)
Definition modification := (nat * nat * bytes)%type.
Definition modifications (y x rowspan colspan : nat) (data : bytes) : list modification :=
  map (fun dx => (y, (x + dx)%nat, data)) (seq 1 (colspan - 1))
  ++ flat_map (fun dy => map (fun dx => ((y + dy)%nat, (x + dx)%nat, data)) (seq 0 colspan)) (seq 1 (rowspan - 1)).
(** plugin/table/utils.go:141-160  growSlice, here to a length *)
Definition grow {A} (l : list A) (len : nat) (d : A) : list A := l ++ repeat d (len - List.length l).
Definition insert_at {A} (x : nat) (v : A) (l : list A) : list A := firstn x l ++ v :: skipn x l.
Fixpoint update {A} (i : nat) (f : A -> A) (l : list A) : list A :=
  match l, i with
  | [], _ => []
  | x :: r, O => f x :: r
  | x :: r, S j => x :: update j f r
  end.
(** plugin/table/utils.go:124-139  applyModifications *)
Definition apply_modification (rows : list (list bytes)) (m : modification) : list (list bytes) :=
  let '(y, x, d) := m in
  update y (fun row => insert_at x d (grow row x [])) (grow rows (S y) []).
(** plugin/table/utils.go:110-122  applyGroupedModifications: the groups in reverse *)
Definition apply_grouped (rows : list (list bytes)) (groups : list (list modification)) : list (list bytes) :=
  fold_left (fun rows ms => fold_left apply_modification ms rows) (rev groups) rows.

(** plugin/table/utils.go:162-196  isEmptyRow, removeEmptyRows, removeFirstRowIfEmpty *)
Definition empty_row (cells : list bytes) : bool := forallb is_empty cells.
Definition remove_empty_rows (rows : list (list bytes)) : list (list bytes) :=
  let rows := match rows with [] => [] | h :: r => h :: filter (fun x => negb (empty_row x)) r end in
  match rows with [h] => if empty_row h then [] else rows | _ => rows end.
Definition remove_first_if_empty (rows : list (list bytes)) : list (list bytes) :=
  match rows with h :: r => if empty_row h then r else rows | [] => [] end.

Section table.
Variable cfg : table_config.
Variables (e : env) (rec : render_fn) (c : rctx).

(** plugin/table/2_collect.go:135-141  getContentForMergedCell *)
Definition merged_content (content : bytes) : bytes := if beqb (span_behavior cfg) (b "mirror") then content else [].
(** plugin/table/2_collect.go:192-199 *)
Definition cell_text (rendered : bytes) : bytes :=
  unescape_fn e (replace_all [marker_esc; 124] [92; 124] (trim_space rendered)).
Definition cell_entries (row : entry) : list entry := filter (entry_is [b "th"; b "td"]) (below row).
(** plugin/table/2_collect.go:176-213  collectCellsInRow *)
Definition collect_cells (y : nat) (row : entry) : res (list bytes * list modification) :=
  let cells := cell_entries row in
  bind (all_done (map (fun x => rec c (e_anc x) (e_node x)) cells)) (fun rendered =>
  let contents := map cell_text rendered in
  let mods := List.concat (map (fun p =>
      let '(x, (cell, content)) := p in
      modifications y x (number_attr (e_node cell) (b "rowspan")) (number_attr (e_node cell) (b "colspan")) (merged_content content))
      (combine (seq 0 (List.length cells)) (combine cells contents))) in
  Done (contents, mods)).
(** plugin/table/2_collect.go:214-256  collectRows *)
Definition collect_rows (header : option entry) (normal : list entry) : res (list (list bytes)) :=
  let first := match header with Some h => [collect_cells O h] | None => [Done ([], [])] end in
  bind (all_done (first ++ map (fun p => collect_cells (fst p) (snd p)) (combine (seq 1 (List.length normal)) normal))) (fun l =>
  let rows := apply_grouped (map fst l) (map snd l) in
  let rows := if skip_empty_rows cfg then remove_empty_rows rows else rows in
  let rows := if promote_first_row cfg then remove_first_if_empty rows else rows in
  Done rows).
(** plugin/table/2_collect.go:108-124: None = the table is skipped *)
Definition handle_newlines (rows : list (list bytes)) : option (list (list bytes)) :=
  if beqb (newline_behavior cfg) (b "preserve")
  then Some (map (map (replace_all [cNL] (b "<br />"))) rows)
  else if existsb (existsb (contains [cNL])) rows then None else Some rows.
(** plugin/table/2_collect.go:143-175  getFirstNode, collectAlignments *)
Definition alignments (header : option entry) (normal : list entry) : list bytes :=
  match match header with Some h => Some h | None => hd_error normal end with
  | None => []
  | Some row => map (fun x => node_attr (e_node x) (b "align") []) (cell_entries row)
  end.
(** plugin/table/2_collect.go:258-274  collectCaption; None = nil (also for a blank caption) *)
Definition caption (table : entry) : res (option bytes) :=
  match find (entry_is [b "caption"]) (below table) with
  | None => Done None
  | Some x => bind (rec c (e_anc x) (e_node x)) (fun s =>
              let s := trim_space s in Done (if is_empty s then None else Some s))
  end.

(** plugin/table/utils.go:16-34  calculateMaxCounts *)
Fixpoint bump_counts (counts : list nat) (cells : list bytes) : list nat :=
  match cells with
  | [] => counts
  | x :: r => match counts with
              | [] => Nat.max 1 (rune_count x) :: bump_counts [] r
              | m :: ms => Nat.max m (rune_count x) :: bump_counts ms r
              end
  end.
Definition max_counts (rows : list (list bytes)) : list nat := fold_left bump_counts rows [].
(** plugin/table/utils.go:36-47  fillUpRows *)
Definition fill_row (n : nat) (cells : list bytes) : list bytes := grow cells n [].

(** plugin/table/3_render.go:93-124  writeRow *)
Definition aligned : bool := beqb (cell_padding cfg) (b "aligned").
Definition pad_space : bytes := if aligned || beqb (cell_padding cfg) (b "minimal") then [cSP] else [].
Definition row_cell (count : nat) (cell : bytes) : bytes :=
  pad_space ++ cell ++ (if aligned then repeat cSP (count - rune_count cell) else []) ++ pad_space ++ [124].
Definition row_text (counts : list nat) (cells : list bytes) : bytes :=
  (if is_empty cells then [] else [124]) ++ List.concat (map (fun p => row_cell (fst p) (snd p)) (combine counts cells)).
(** plugin/table/3_render.go:57-91  getAlignmentFor, writeHeaderUnderline *)
Definition underline_cell (align : bytes) (count : nat) : bytes :=
  (if one_of [b "left"; b "center"] align then [58] else [45])
  ++ (if aligned then repeat 45 count else [45])
  ++ (if one_of [b "right"; b "center"] align then [58] else [45]) ++ [124].
Definition underline_text (aligns : list bytes) (counts : list nat) : bytes :=
  (if is_empty counts then [] else [124])
  ++ List.concat (map (fun p => underline_cell (nth (fst p) aligns []) (snd p)) (combine (seq 0 (List.length counts)) counts)).
(** plugin/table/3_render.go:20-55 *)
Definition table_text (aligns : list bytes) (rows : list (list bytes)) (cap : option bytes) : bytes :=
  let counts := max_counts rows in
  let rows := map (fill_row (List.length counts)) rows in
  [cNL; cNL] ++ row_text counts (hd [] rows) ++ [cNL] ++ underline_text aligns counts ++ [cNL]
  ++ List.concat (map (fun r => row_text counts r ++ [cNL]) (tl rows))
  ++ (match cap with Some s => [cNL; cNL] ++ s | None => [] end) ++ [cNL; cNL].

(** plugin/table/2_collect.go:71-133 and 3_render.go:11-18  collectTableContent, renderTable *)
Definition render_table (anc : list bytes) (n : node) : res (bool * bytes) :=
  let table := {| e_path := []; e_anc := anc; e_node := n |} in
  if beqb (node_attr n (b "role") []) (b "presentation") && negb (convert_presentation cfg) then Done (false, [])
  else if existsb (entry_is problematic_kids) (below table) then Done (false, [])
  else if existsb (name_in problematic_parents) anc then Done (false, [])
  else
    let header := header_row table in
    let normal := normal_rows table header in
    bind (collect_rows header normal) (fun rows =>
    if is_empty rows then Done (false, [])
    else match handle_newlines rows with
         | None => Done (false, [])
         | Some rows => bind (caption table) (fun cap => Done (true, table_text (alignments header normal) rows cap))
         end).
End table.

(** plugin/table/table.go:196-219  handleRender, renderFallbackRow *)
Definition table_render (cfg : table_config) : renderer := fun e rec c anc n =>
  if beqb (node_name n) (b "table") then render_table cfg e rec c anc n
  else if beqb (node_name n) (b "tr")
  then bind (render_kids rec c anc n) (fun x => Done (true, [cNL; cNL] ++ x ++ [cNL; cNL]))
  else Done (false, []).
(** plugin/table/table.go:165-194  NewTablePlugin, Init *)
Definition table_plugin (os : list table_option) : plugin :=
  match apply_table_options os table_defaults with
  | (_, Some err) => Plugin (b "table") [] (Some err)
  | (cfg, None) => Plugin (b "table") [RegChars [124]; RegRender (table_render cfg) prio_standard] None
  end.
