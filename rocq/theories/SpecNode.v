(** Specification vocabulary for the rendering of single elements (C58): what a conversion makes of a node, in terms of what it makes
    of the children. The functions of the plugins that render elements are not used here. *)
From Coq Require Import List NArith ZArith Bool String.
From Verif Require Import Bytes Escape Dom RenderText Engine CommonMark SpecText SpecText2 SpecDom SpecPipeline SpecTable.
Import ListNotations.
Open Scope N_scope.
Open Scope list_scope.

(** A converter with bundled plugins, and the function that makes URLs absolute *)
Record setting := { st_sort : forall A : Type, list (Z * A) -> list (Z * A); st_mode : escape_mode; st_uses : list use; st_url : bytes -> bytes -> bytes }.
(** The node [n] is rendered as [s], in a context and below ancestors; [f] bounds the depth of the tree. *)
Definition rendered (x : setting) (f : nat) (c : rctx) (anc : list bytes) (n : node) (s : bytes) : Prop :=
  let cv := converter_with (st_mode x) (st_uses x) in
  render (env_of (st_sort x) cv (st_url x)) (in_order (st_sort x) (cv_render cv)) (in_order (st_sort x) (cv_text cv)) f c anc n = Done s.
(** The children are rendered as [parts]. *)
Definition inside (x : setting) (f : nat) (c : rctx) (anc : list bytes) (n : node) (parts : list bytes) : Prop :=
  Forall2 (rendered x f c (node_name n :: anc)) (kids n) parts.
(** The options of the commonmark plugin, with the defaults filled in *)
Definition options (x : setting) (cfg : config) : Prop :=
  exists cfg0, In (UseCommonmark cfg0) (st_uses x) /\ (forall c, In (UseCommonmark c) (st_uses x) -> c = cfg0)
    /\ validate_config (fill_defaults cfg0) = None /\ cfg = fill_defaults cfg0.

(** The heading elements *)
Definition heading_level_of (name : bytes) (k : nat) : Prop :=
  In (name, k) [(b "h1", 1); (b "h2", 2); (b "h3", 3); (b "h4", 4); (b "h5", 5); (b "h6", 6)]%nat.
(** A number sign at the end of the content has the marker of the escaping before it. *)
Definition closing_hash_marked (content : bytes) : Prop :=
  forall z w, content = z ++ [35] ++ w -> spaces w -> exists z', z = z' ++ [7].
(** The value of an attribute (empty when it is missing) *)
Definition attribute (n : node) (key : bytes) : bytes :=
  match n with
  | Elem _ a _ => match find (fun kv => beqb (fst kv) key) a with Some (_, v) => v | None => [] end
  | _ => []
  end.
(** The text without the white space around it *)
Definition trimmed (v t : bytes) : Prop := exists l r, v = l ++ t ++ r /\ spaces l /\ spaces r /\ (t = [] \/ hugs t).
(** One line feed at the end is dropped. *)
Definition final_newline_dropped (code code' : bytes) : Prop := code = code' ++ [10] \/ code = code' /\ last_is 10 code = false.
(** The code of an element: the texts below it in order, a line feed for each br and div; without style, script and textarea *)
Definition code_piece (p : place) : bytes :=
  match snd p with
  | Text d => d
  | Elem x _ _ => if existsb (beqb x) [b "br"; b "div"] then [10] else []
  | _ => []
  end.
Definition not_code (p : place) : bool :=
  existsb (fun x => existsb (beqb x) [b "style"; b "script"; b "textarea"]) (node_name (snd p) :: fst p).
Definition code_of (n : node) : bytes := flat_map code_piece (filter (fun p => negb (not_code p)) (places [] n)).
(** The classes of the pre and code elements, outside first *)
Definition classes_of (n : node) : list bytes :=
  map (fun p => attribute (snd p) (b "class"))
      (filter (fun p => negb (not_code p) && existsb (beqb (node_name (snd p))) [b "code"; b "pre"]) (([], n) :: places [] n)).
(** The language that a class attribute names: words separated by spaces, the first one of the recommended form counts. *)
Definition language_of (class lang : bytes) : Prop :=
  (exists before w after, class = join [32] (before ++ w :: after) /\ Forall (fun v => ~ In 32 v) (before ++ w :: after)
     /\ Forall no_language before /\ names_language w lang /\ no_language lang)
  \/ exists ws, class = join [32] ws /\ Forall (fun v => ~ In 32 v) ws /\ Forall no_language ws /\ lang = [].
(** The first language that is not empty *)
Fixpoint first_named (langs : list bytes) : bytes :=
  match langs with [] => [] | l :: r => if is_empty l then first_named r else l end.
(** The number of the first item *)
Definition first_number (n : node) (z : Z) : Prop :=
  match n with
  | Elem _ a _ =>
      match find (fun kv => beqb (fst kv) (b "start")) a with
      | Some (_, v) => atoi v = Some z \/ atoi v = None /\ z = 1%Z
      | None => z = 1%Z
      end
  | _ => False
  end.
(** The items that are not blank, and what is written for them: the same visible characters *)
Definition item_written (it o : bytes) : Prop := ~ spaces it /\ inked o = inked it.
Inductive items_written : list bytes -> list bytes -> Prop :=
| iw_nil : items_written [] []
| iw_blank it its os : spaces it -> items_written its os -> items_written (it :: its) os
| iw_item it its o os : item_written it o -> items_written its os -> items_written (it :: its) (o :: os).
(** A destination without characters that would end it *)
Definition plain_destination (dest : bytes) : Prop :=
  dest <> [] /\ (forall c, In c dest -> 32 < c /\ c <> 127 /\ c <> 40 /\ c <> 41 /\ c <> 60) /\ ~ exists x, dest = x ++ [92].
(** The title as read *)
Definition title_is (title : bytes) (o : option bytes) : Prop :=
  title = [] /\ o = None \/ exists q inner, o = Some inner /\ (q = 34 \/ q = 39) /\ strip_escapes q inner = title.
Definition on_one_line (s : bytes) : bytes := map (fun c => if c =? 10 then 32 else c) s.
(** Elements that are rendered in a way of their own *)
Definition rendered_names : list bytes := map b
  ["strong"; "b"; "em"; "i"; "hr"; "br"; "ul"; "ol"; "pre"; "code"; "var"; "samp"; "kbd"; "tt"; "blockquote"; "h1"; "h2"; "h3"; "h4"; "h5"; "h6";
   "img"; "a"; "#comment"; "del"; "s"; "strike"; "table"; "tr"]%string.
