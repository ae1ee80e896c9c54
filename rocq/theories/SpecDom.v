(** Independent specification of the preparation of the tree (C17, C41, C42, C43, C44). *)
From Coq Require Import List NArith Bool String.
From Verif Require Import Bytes Dom.
Import ListNotations.
Open Scope N_scope.
Open Scope list_scope.

(** All text below a node, in document order *)
Fixpoint text_of (n : node) : bytes :=
  match n with Text d => d | Elem _ _ ks | Doc ks => flat_map text_of ks | _ => [] end.
(** The characters of a class that stand in texts below a node *)
Definition chars (keep : N -> bool) (n : node) : bytes := filter keep (text_of n).
(** Visible ASCII characters; the second class leaves out the double quote. *)
Definition graphic (c : N) : bool := (33 <=? c) && (c <=? 126).
Definition unquoted (c : N) : bool := graphic c && negb (c =? 34).
(** ASCII letters and digits *)
Definition alnum (c : N) : bool :=
  ((48 <=? c) && (c <=? 57)) || ((65 <=? c) && (c <=? 90)) || ((97 <=? c) && (c <=? 122)).

(** Trees as the HTML parser builds them: hr, br and img have no children and a document node is never a child. *)
Definition childless : list bytes := [b "hr"; b "br"; b "img"].
Definition is_doc (n : node) : bool := match n with Doc _ => true | _ => false end.
Fixpoint tidy (n : node) : bool :=
  match n with
  | Elem x _ ks => (negb (name_in childless x) || (match ks with [] => true | _ => false end))
                   && forallb (fun k => negb (is_doc k) && tidy k) ks
  | Doc ks => forallb (fun k => negb (is_doc k) && tidy k) ks
  | _ => true
  end.

(** The elements that never reach the output, and what the reader of a page sees of the rest. (No element of a parsed document is
    called #comment; that is the name the code gives to comments.) *)
Definition hidden_names : list bytes := map b
  ["#comment"; "head"; "script"; "style"; "link"; "meta"; "iframe"; "noscript"; "input"; "textarea"]%string.
Fixpoint visible_text (n : node) : bytes :=
  match n with
  | Text d => d
  | Elem x _ ks => if name_in hidden_names x then [] else flat_map visible_text ks
  | Doc ks => flat_map visible_text ks
  | _ => []
  end.
Definition invisible (n : node) : bool :=
  match n with Elem x _ _ => name_in hidden_names x | Comment _ => true | _ => false end.

(** Two documents that differ only in invisible nodes: such nodes can be put in or left out anywhere, also inside a text. *)
Inductive same_seen : node -> node -> Prop :=
| Same_refl : forall n, same_seen n n
| Same_elem : forall x a ks ms, same_kids ks ms -> same_seen (Elem x a ks) (Elem x a ms)
| Same_doc : forall ks ms, same_kids ks ms -> same_seen (Doc ks) (Doc ms)
with same_kids : list node -> list node -> Prop :=
| Same_nil : same_kids [] []
| Same_cons : forall n m ks ms, same_seen n m -> same_kids ks ms -> same_kids (n :: ks) (m :: ms)
| Same_skip : forall n ks, invisible n = true -> same_kids (n :: ks) ks
| Same_split : forall d1 d2 ks, same_kids (Text d1 :: Text d2 :: ks) (Text (d1 ++ d2) :: ks)
| Same_sym : forall ks ms, same_kids ks ms -> same_kids ms ks
| Same_trans : forall ks ms ns, same_kids ks ms -> same_kids ms ns -> same_kids ks ns.

(** Normal forms. [everywhere p n]: every node of the tree satisfies p. *)
Fixpoint everywhere (p : node -> bool) (n : node) : bool :=
  p n && match n with Elem _ _ ks | Doc ks => forallb (everywhere p) ks | _ => true end.
(** no two neighbouring texts among the children *)
Fixpoint no_text_pair (l : list node) : bool :=
  match l with
  | Text _ :: (Text _ :: _) as r => false
  | _ :: r => no_text_pair r
  | [] => true
  end.
(** the children of ul and ol are li elements and blank texts *)
Definition blank (c : N) : bool := (c =? 32) || ((9 <=? c) && (c <=? 13)) || (128 <=? c).
Definition list_child (n : node) : bool :=
  match n with Elem x _ _ => name_in [b "li"] x | Text d => forallb blank d | _ => false end.
Definition list_shape (n : node) : bool :=
  match n with Elem x _ ks => negb (name_in [b "ul"; b "ol"] x) || forallb list_child ks | _ => true end.
(** no element of these names inside *)
Fixpoint free_of (names : list bytes) (n : node) : bool :=
  match n with
  | Elem x _ ks => negb (name_in names x) && forallb (free_of names) ks
  | Doc ks => forallb (free_of names) ks
  | _ => true
  end.
Definition kids_free_of (outer names : list bytes) (n : node) : bool :=
  match n with Elem x _ ks => negb (name_in outer x) || forallb (free_of names) ks | _ => true end.
(** Markdown cannot hold blocks inside a heading, a code block or an inline element. *)
Definition leaf_names : list bytes := map b ["hr"; "pre"; "h1"; "h2"; "h3"; "h4"; "h5"; "h6"]%string.
Definition inline_names : list bytes := map b ["span"; "code"; "b"; "strong"; "i"; "em"; "a"; "img"; "br"]%string.
Definition block_like : list bytes := map b ["html"; "head"; "body"; "blockquote"; "ul"; "ol"; "li"]%string ++ leaf_names.
Definition no_misplaced_block (n : node) : bool := everywhere (kids_free_of (leaf_names ++ inline_names) block_like) n.
(** The order in which lists begin and end. Everything that separates two lists in the markdown (a text, a list item, a divider, the
    comment) is a stop; other elements only contribute what is in them. *)
Inductive event := EvOpen | EvClose | EvStop.
Fixpoint events (n : node) : list event :=
  match n with
  | Text _ => [EvStop]
  | Elem x _ ks =>
      if name_in [b "ul"; b "ol"] x then EvOpen :: flat_map events ks ++ [EvClose]
      else if name_in [b "li"; b "hr"] x then EvStop :: flat_map events ks
      else flat_map events ks
  | Comment d => if beqb d (b "THE END") then [EvStop] else []
  | Doc ks => flat_map events ks
  | Other _ => []
  end.
(** no list begins directly after the end of another one *)
Fixpoint apart (l : list event) : bool :=
  match l with
  | EvClose :: (EvOpen :: _) as r => false
  | _ :: r => apart r
  | [] => true
  end.
(** the tree without these comments *)
Fixpoint without_end_comments (n : node) : list node :=
  match n with
  | Elem x a ks => [Elem x a (flat_map without_end_comments ks)]
  | Doc ks => [Doc (flat_map without_end_comments ks)]
  | Comment d => if beqb d (b "THE END") then [] else [n]
  | _ => [n]
  end.

(** ** Whitespace in running text (C17)
    The sequence of what a reader meets: texts, borders of blocks (a line break counts as one), things that are neither text nor block
    (images, code), borders of inline elements. Comments are not seen. *)
Inductive tok := TkText (d : bytes) | TkBlock | TkSolid | TkInline.
Definition verbatim_names : list bytes := [b "pre"; b "code"].
Definition solid_names : list bytes := map b
  ["area"; "base"; "col"; "command"; "embed"; "hr"; "img"; "input"; "keygen"; "link"; "meta"; "param"; "track"; "wbr"; "pre"; "code"]%string.
Definition border (is_block : bytes -> bool) (x : bytes) : tok :=
  if is_block x || beqb x (b "br") then TkBlock else if name_in solid_names x then TkSolid else TkInline.
Fixpoint flow (is_block : bytes -> bool) (n : node) : list tok :=
  match n with
  | Text d => [TkText d]
  | Elem x _ ks =>
      [border is_block x] ++ (if name_in verbatim_names x then [] else flat_map (flow is_block) ks) ++ [border is_block x]
  | _ => []
  end.
Fixpoint no_text_run (l : list tok) : bool :=
  match l with
  | TkText _ :: (TkText _ :: _) as r => false
  | _ :: r => no_text_run r
  | [] => true
  end.
(** a text with blanks (space, tab, newline, carriage return) only as single spaces *)
Fixpoint single_spaced (s : bytes) : bool :=
  match s with
  | [] => true
  | c :: t => negb ((c =? 9) || (c =? 10) || (c =? 13)) && negb ((c =? 32) && (match t with d :: _ => d =? 32 | [] => false end))
              && single_spaced t
  end.
Definition starts_blank (s : bytes) : bool := match s with c :: _ => c =? 32 | [] => false end.
Definition ends_blank (s : bytes) : bool := starts_blank (rev s).
(** [before]: None at the start of a block, otherwise whether what was met last ends with a blank. *)
Fixpoint well_spaced (before : option bool) (l : list tok) : bool :=
  match l with
  | [] => match before with Some true => false | _ => true end
  | TkBlock :: r => match before with Some true => false | _ => true end && well_spaced None r
  | TkSolid :: r => well_spaced (Some false) r
  | TkInline :: r => well_spaced before r
  | TkText d :: r =>
      match d with
      | [] => well_spaced before r
      | _ => (negb (starts_blank d) || match before with Some false => true | _ => false end) && single_spaced d
             && well_spaced (Some (ends_blank d)) r
      end
  end.
(** What is left of the blanks: the sequence character by character, and the same with one blank where there were some between two
    visible things of the same block and none elsewhere. *)
Inductive mark := MkInk (c : N) | MkBlank | MkSolid | MkEdge.
Definition marks_of (t : tok) : list mark :=
  match t with
  | TkText d => map (fun c => if (c =? 32) || (c =? 9) || (c =? 10) || (c =? 13) then MkBlank else MkInk c) d
  | TkBlock => [MkEdge]
  | TkSolid => [MkSolid]
  | TkInline => []
  end.
Fixpoint respaced (first waiting : bool) (l : list mark) : list mark :=
  match l with
  | [] => []
  | MkBlank :: r => respaced first true r
  | MkEdge :: r => MkEdge :: respaced true false r
  | x :: r => (if waiting && negb first then [MkBlank] else []) ++ x :: respaced false false r
  end.
(** the tree without texts; the content of pre and code stays *)
Fixpoint bones (n : node) : list node :=
  match n with
  | Text _ | Other _ | Doc _ => []
  | Elem x a ks => if name_in verbatim_names x then [n] else [Elem x a (flat_map bones ks)]
  | Comment _ => [n]
  end.

(** ** Letters of the document in the output (C44) *)
Inductive subsequence : bytes -> bytes -> Prop :=
| Sub_nil : forall y, subsequence [] y
| Sub_take : forall c x y, subsequence x y -> subsequence (c :: x) (c :: y)
| Sub_skip : forall c x y, subsequence x y -> subsequence x (c :: y).
(** Visible ASCII characters that have no other spelling in the output: angle brackets become entities, and the double quote stands for
    a blockquote inside a heading. *)
Definition spelled (c : N) : bool := graphic c && negb (c =? 34) && negb (c =? 60) && negb (c =? 62).
