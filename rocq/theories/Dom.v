(** The document tree: golang.org/x/net/html nodes and the helpers of github.com/JohannesKaufmann/dom that the code uses
    (both recalled, they are not part of /repo). No proofs in this file.

    A Go node is a mutable record with parent/sibling pointers; the model is a rose tree and each pass a function on trees.
    Only elements and documents have children. Namespace is not modelled (nothing in /repo reads it). DataAtom is read once
    (plugin/table/2_collect.go:260, atom.Caption): the model uses the name, which agrees for parsed documents. *)
From Coq Require Import List NArith Bool String.
From Verif Require Import Bytes.
Import ListNotations.
Open Scope N_scope.
Open Scope list_scope.

Definition attrs := list (bytes * bytes).
(** html.Node by Type; [Other] stands for DoctypeNode, ErrorNode and RawNode. *)
Inductive node :=
| Text (data : bytes)
| Elem (name : bytes) (at_ : attrs) (kids : list node)
| Comment (data : bytes)
| Doc (kids : list node)
| Other (data : bytes).

(** dom.NodeName. Elements are assumed to have no name that starts with '#'. *)
Definition node_name (n : node) : bytes :=
  match n with
  | Text _ => b "#text"
  | Elem name _ _ => name
  | Comment _ => b "#comment"
  | Doc _ => b "#document"
  | Other _ => b "#doctype"
  end.
(** dom.AllChildNodes *)
Definition kids (n : node) : list node :=
  match n with Elem _ _ ks | Doc ks => ks | _ => [] end.
Definition with_kids (n : node) (ks : list node) : node :=
  match n with Elem x a _ => Elem x a ks | Doc _ => Doc ks | _ => n end.

Definition name_in (l : list bytes) (name : bytes) : bool := existsb (beqb name) l.
Definition named (l : list bytes) (n : node) : bool :=
  match n with Elem name _ _ => name_in l name | _ => false end.

(** dom.GetAttributeOr: the first attribute with that key *)
Fixpoint attr_or (key dflt : bytes) (a : attrs) : bytes :=
  match a with
  | [] => dflt
  | (k, v) :: rest => if beqb k key then v else attr_or key dflt rest
  end.
Definition node_attr (n : node) (key dflt : bytes) : bytes :=
  match n with Elem _ a _ => attr_or key dflt a | _ => dflt end.

(** dom.NameIsBlockNode *)
Definition block_names : list bytes := map b
  ["address"; "article"; "aside"; "blockquote"; "details"; "dialog"; "dd"; "div"; "dl"; "dt"; "fieldset"; "figcaption";
   "figure"; "footer"; "form"; "h1"; "h2"; "h3"; "h4"; "h5"; "h6"; "header"; "hgroup"; "hr"; "li"; "main"; "nav"; "ol";
   "p"; "pre"; "section"; "table"; "ul"]%string.
Definition is_block_name (name : bytes) : bool := name_in block_names name.

(** Number of nodes *)
Fixpoint size (n : node) : nat :=
  match n with
  | Elem _ _ ks | Doc ks => S (fold_right (fun k s => (size k + s)%nat) O ks)
  | _ => 1%nat
  end.
Definition sizes (ns : list node) : nat := fold_right (fun k s => (size k + s)%nat) O ns.
