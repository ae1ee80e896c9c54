(** Specification of the converter engine, independent of the functions of Engine.v. *)
From Coq Require Import List NArith ZArith Bool String Sorting.Permutation Sorting.Sorted.
From Verif Require Import Bytes Escape Dom Engine.
Import ListNotations.
Open Scope N_scope.
Open Scope list_scope.

(** What is needed of sort.Slice: a permutation in non-decreasing order of priority; nothing about equal priorities. *)
Definition by_priority {A} (l : list (Z * A)) : Prop := Sorted (fun x y => (fst x <= fst y)%Z) l.
Definition sorts (sort : forall A : Type, list (Z * A) -> list (Z * A)) : Prop :=
  forall A (l : list (Z * A)), Permutation (sort A l) l /\ by_priority (sort A l).

(** The calls that a list of calls makes in the end: a plugin with a name makes those of its Init, a plugin without one makes
    none. *)
Fixpoint expand (a : action) : list action :=
  match a with
  | RegPlugin (Plugin name init _) =>
      if is_empty name then []
      else (fix go (l : list action) : list action := match l with [] => [] | x :: r => expand x ++ go r end) init
  | _ => [a]
  end.
Definition expand_all (l : list action) : list action := flat_map expand l.
Definition registered_pre (l : list action) : list (Z * pre_handler) :=
  flat_map (fun a => match a with RegPre h p => [(p, h)] | _ => [] end) (expand_all l).
Definition registered_render (l : list action) : list (Z * renderer) :=
  flat_map (fun a => match a with RegRender h p => [(p, h)] | _ => [] end) (expand_all l).
Definition registered_post (l : list action) : list (Z * post_handler) :=
  flat_map (fun a => match a with RegPost h p => [(p, h)] | _ => [] end) (expand_all l).
Definition registered_text (l : list action) : list (Z * text_handler) :=
  flat_map (fun a => match a with RegText h p => [(p, h)] | _ => [] end) (expand_all l).
Definition registered_unescape (l : list action) : list (Z * detector) :=
  flat_map (fun a => match a with RegUnescape d p => [(p, d)] | _ => [] end) (expand_all l).
Definition registered_chars (l : list action) : list N :=
  flat_map (fun a => match a with RegChars cs => cs | _ => [] end) (expand_all l).
Definition registered_tags (l : list action) : list (bytes * (Z * tag_type)) :=
  flat_map (fun a => match a with RegTag n t p => [(n, (p, t))] | _ => [] end) (expand_all l).

(** The names of the plugins (also of plugins registered by plugins) *)
Fixpoint plugin_names (a : action) : list bytes :=
  match a with
  | RegPlugin (Plugin name init _) =>
      if is_empty name then []
      else name :: (fix go (l : list action) : list bytes := match l with [] => [] | x :: r => plugin_names x ++ go r end) init
  | _ => []
  end.
(** A call goes wrong: the plugin has no name, its Init returns an error or makes a call that goes wrong. *)
Fixpoint goes_wrong (a : action) : bool :=
  match a with
  | RegPlugin (Plugin name init err) =>
      is_empty name || match err with Some _ => true | None => false end
      || (fix go (l : list action) : bool := match l with [] => false | x :: r => goes_wrong x || go r end) init
  | _ => false
  end.
Definition option_calls (o : conv_option) : list action :=
  match o with OptMode _ => [] | OptPlugins ps => map RegPlugin ps | OptCustom l _ => l end.
Definition option_wrong (o : conv_option) : bool :=
  existsb goes_wrong (option_calls o) || match o with OptCustom _ (Some _) => true | _ => false end.

(** The output of the first renderer that succeeds, after what the ones before it wrote. *)
Definition gives_up (e : env) (rec : render_fn) c anc n (h : renderer) (w : bytes) : Prop :=
  h e rec c anc n = Done (false, w).

(** State: what a key holds after operations (the newest first) of one conversion. *)
From Verif Require Import State.
Fixpoint value_after (k : bytes) (ops : list state_op) : dyn :=
  match ops with
  | [] => None
  | SetState ty k' v :: r => if beqb k' k then Some (ty, v) else value_after k r
  | UpdateState ty k' f :: r =>
      if beqb k' k then Some (ty, f (match value_after k r with Some (t, x) => if t =? ty then x else [] | None => [] end))
      else value_after k r
  end.
Definition ops_of (id : nat) (ops : list (nat * state_op)) : list state_op :=
  map snd (filter (fun io => Nat.eqb (fst io) id) ops).
(** All goroutines that have finished got [t]. *)
Definition all_got (t : option tag_type) (ts : list pc) : Prop := forall u, In (Returned_type u) ts -> u = t.
