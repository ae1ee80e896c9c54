(** Model of the package converter: registration, priorities, tag types, rendering, ConvertNode. No proofs in this file.

    Concurrency (the mutex) is not modelled here; see Concurrent.v. The text of error messages is simplified. *)
From Coq Require Import List NArith ZArith Bool String.
From Verif Require Import Bytes TextUtils Escape Dom.
Import ListNotations.
Open Scope N_scope.
Open Scope list_scope.

(** Outcome of Go code that may panic. [OutOfFuel] is an artefact of the model (excluded by RenderTotal). *)
Inductive res (A : Type) := Done (a : A) | Panic | OutOfFuel.
Arguments Done {A} a. Arguments Panic {A}. Arguments OutOfFuel {A}.
Definition bind {A B} (r : res A) (f : A -> res B) : res B :=
  match r with Done a => f a | Panic => Panic | OutOfFuel => OutOfFuel end.
(** Writing one result after the other into the same buffer *)
Fixpoint write_all (rs : list (res bytes)) : res bytes :=
  match rs with
  | [] => Done []
  | r :: rest => bind r (fun x => bind (write_all rest) (fun y => Done (x ++ y)))
  end.

(** converter/register.go:186-194  tagType *)
Inductive tag_type := TBlock | TInline | TRemove.
(** What converter.Context offers to handlers (converter/ctx.go:136-150) apart from the values and the rendering. *)
Record env := {
  tag_type_of : bytes -> option tag_type;
  escape_fn : bytes -> bytes;
  unescape_fn : bytes -> bytes;
  assemble_url : bytes -> bytes -> bytes          (* tag name, raw URL *)
}.
(** context.Context values set with WithValue: innermost first (only boolean values are needed). *)
Definition rctx := list (bytes * bool).
Fixpoint ctx_value (key : bytes) (c : rctx) : bool :=
  match c with [] => false | (k, v) :: r => if beqb k key then v else ctx_value key r end.

(** Go nodes know their parents; the model passes the names of the ancestors, nearest first. *)
Definition render_fn := rctx -> list bytes -> node -> res bytes.
Definition pre_handler := env -> node -> node.
(** HandleRenderFunc: the status (true = RenderSuccess) and what was written. *)
Definition renderer := env -> render_fn -> rctx -> list bytes -> node -> res (bool * bytes).
Definition post_handler := env -> bytes -> bytes.
Definition text_handler := env -> rctx -> bytes -> bytes.

(** converter/converter.go:5-26  Converter *)
Record converter := {
  cv_err : option bytes;
  cv_plugins : list bytes;
  cv_pre : list (Z * pre_handler);
  cv_render : list (Z * renderer);
  cv_post : list (Z * post_handler);
  cv_text : list (Z * text_handler);
  cv_chars : list N;
  cv_unescape : list (Z * detector);
  cv_tags : list (bytes * (Z * tag_type));        (* in the order of registration *)
  cv_mode : escape_mode
}.
(** converter/converter.go:31-34 *)
Definition empty_converter : converter := {|
  cv_err := None; cv_plugins := []; cv_pre := []; cv_render := []; cv_post := []; cv_text := [];
  cv_chars := []; cv_unescape := []; cv_tags := []; cv_mode := Smart |}.

Definition set_err (e : bytes) (c : converter) : converter := {|
  cv_err := Some e; cv_plugins := cv_plugins c; cv_pre := cv_pre c; cv_render := cv_render c; cv_post := cv_post c;
  cv_text := cv_text c; cv_chars := cv_chars c; cv_unescape := cv_unescape c; cv_tags := cv_tags c; cv_mode := cv_mode c |}.
Definition add_plugin (n : bytes) (c : converter) : converter := {|
  cv_err := cv_err c; cv_plugins := cv_plugins c ++ [n]; cv_pre := cv_pre c; cv_render := cv_render c; cv_post := cv_post c;
  cv_text := cv_text c; cv_chars := cv_chars c; cv_unescape := cv_unescape c; cv_tags := cv_tags c; cv_mode := cv_mode c |}.

(** Calls of the methods of Register (converter/register.go); a plugin is its name, the calls made by Init and the error
    that Init returns. *)
Inductive action :=
| RegPre (h : pre_handler) (p : Z)
| RegRender (h : renderer) (p : Z)
| RegPost (h : post_handler) (p : Z)
| RegText (h : text_handler) (p : Z)
| RegChars (cs : list N)
| RegUnescape (d : detector) (p : Z)
| RegTag (name : bytes) (t : tag_type) (p : Z)
| RegPlugin (pl : plugin)
with plugin := Plugin (name : bytes) (init : list action) (error : option bytes).

(** converter/register.go:77-89  RendererFor *)
Definition renderer_for (name : bytes) (h : renderer) : renderer :=
  fun e rec c anc n => if beqb (node_name n) name then h e rec c anc n else Done (false, []).
Definition reg_renderer_for (name : bytes) (t : tag_type) (h : renderer) (p : Z) : list action :=
  [RegTag name t p; RegRender (renderer_for name h) p].

(** converter/register.go:15-31 and the registering methods (37-43, 67-73, 106-112, 128-134, 148-155, 166-172, 196-202) *)
Fixpoint do_action (a : action) (c : converter) : converter :=
  match a with
  | RegPre h p => {|
      cv_err := cv_err c; cv_plugins := cv_plugins c; cv_pre := cv_pre c ++ [(p, h)]; cv_render := cv_render c;
      cv_post := cv_post c; cv_text := cv_text c; cv_chars := cv_chars c; cv_unescape := cv_unescape c;
      cv_tags := cv_tags c; cv_mode := cv_mode c |}
  | RegRender h p => {|
      cv_err := cv_err c; cv_plugins := cv_plugins c; cv_pre := cv_pre c; cv_render := cv_render c ++ [(p, h)];
      cv_post := cv_post c; cv_text := cv_text c; cv_chars := cv_chars c; cv_unescape := cv_unescape c;
      cv_tags := cv_tags c; cv_mode := cv_mode c |}
  | RegPost h p => {|
      cv_err := cv_err c; cv_plugins := cv_plugins c; cv_pre := cv_pre c; cv_render := cv_render c;
      cv_post := cv_post c ++ [(p, h)]; cv_text := cv_text c; cv_chars := cv_chars c; cv_unescape := cv_unescape c;
      cv_tags := cv_tags c; cv_mode := cv_mode c |}
  | RegText h p => {|
      cv_err := cv_err c; cv_plugins := cv_plugins c; cv_pre := cv_pre c; cv_render := cv_render c;
      cv_post := cv_post c; cv_text := cv_text c ++ [(p, h)]; cv_chars := cv_chars c; cv_unescape := cv_unescape c;
      cv_tags := cv_tags c; cv_mode := cv_mode c |}
  | RegChars cs => {|
      cv_err := cv_err c; cv_plugins := cv_plugins c; cv_pre := cv_pre c; cv_render := cv_render c;
      cv_post := cv_post c; cv_text := cv_text c; cv_chars := cv_chars c ++ cs; cv_unescape := cv_unescape c;
      cv_tags := cv_tags c; cv_mode := cv_mode c |}
  | RegUnescape d p => {|
      cv_err := cv_err c; cv_plugins := cv_plugins c; cv_pre := cv_pre c; cv_render := cv_render c;
      cv_post := cv_post c; cv_text := cv_text c; cv_chars := cv_chars c; cv_unescape := cv_unescape c ++ [(p, d)];
      cv_tags := cv_tags c; cv_mode := cv_mode c |}
  | RegTag name t p => {|
      cv_err := cv_err c; cv_plugins := cv_plugins c; cv_pre := cv_pre c; cv_render := cv_render c;
      cv_post := cv_post c; cv_text := cv_text c; cv_chars := cv_chars c; cv_unescape := cv_unescape c;
      cv_tags := cv_tags c ++ [(name, (p, t))]; cv_mode := cv_mode c |}
  | RegPlugin (Plugin name init err) =>
      if is_empty name then set_err (b "the plugin has no name") c
      else
        let c1 := (fix go (l : list action) (c : converter) : converter :=
                     match l with [] => c | x :: r => go r (do_action x c) end) init (add_plugin name c) in
        match err with
        | Some m => set_err (b "error while initializing " ++ name ++ b " plugin: " ++ m) c1
        | None => c1
        end
  end.
Definition do_actions (l : list action) (c : converter) : converter := fold_left (fun c a => do_action a c) l c.

(** converter/converter.go:28-72, converter/plugin.go:15-22: an option sets the mode, registers plugins or is a custom one that
    makes calls and may return an error *)
Inductive conv_option :=
| OptMode (m : escape_mode)
| OptPlugins (ps : list plugin)
| OptCustom (l : list action) (error : option bytes).
Definition set_mode (m : escape_mode) (c : converter) : converter := {|
  cv_err := cv_err c; cv_plugins := cv_plugins c; cv_pre := cv_pre c; cv_render := cv_render c; cv_post := cv_post c;
  cv_text := cv_text c; cv_chars := cv_chars c; cv_unescape := cv_unescape c; cv_tags := cv_tags c; cv_mode := m |}.
Definition apply_option (o : conv_option) (c : converter) : converter * option bytes :=
  match o with
  | OptMode m => (set_mode m c, None)
  | OptPlugins ps => (do_actions (map RegPlugin ps) c, None)
  | OptCustom l e => (do_actions l c, e)
  end.
(** converter/converter.go:30-46  NewConverter: the first error ends the loop *)
Fixpoint apply_options (os : list conv_option) (c : converter) : converter :=
  match os with
  | [] => c
  | o :: r => match apply_option o c with
              | (c', Some e) => set_err e c'
              | (c', None) => apply_options r c'
              end
  end.
Definition new_converter (os : list conv_option) : converter := apply_options os empty_converter.

(** Stable insertion by priority: what sort.Slice does on slices of at most 12 elements. *)
Fixpoint insert_prio {A} (x : Z * A) (l : list (Z * A)) : list (Z * A) :=
  match l with
  | [] => [x]
  | y :: r => if (fst x <? fst y)%Z then x :: l else y :: insert_prio x r
  end.
Definition stable_sort (A : Type) (l : list (Z * A)) : list (Z * A) := fold_left (fun acc x => insert_prio x acc) l [].

Section engine.
(** converter/prioritized.go:25-29  sort.Slice by priority. The algorithm is a parameter: it is not stable in general. *)
Variable sort : forall A : Type, list (Z * A) -> list (Z * A).
Definition in_order {A} (l : list (Z * A)) : list A := map snd (sort A l).

(** converter/register.go:203-222  getTagType. The list of inline names of the dom package is not modelled: an inline name and
    an unknown name both give None (no bundled code distinguishes them). Sorting in place is modelled in Concurrent.v. *)
Definition types_for (name : bytes) (tags : list (bytes * (Z * tag_type))) : list (Z * tag_type) :=
  map snd (filter (fun e => beqb (fst e) name) tags).
Definition get_tag_type (c : converter) (name : bytes) : option tag_type :=
  match in_order (types_for name (cv_tags c)) with
  | t :: _ => Some t
  | [] => if is_block_name name then Some TBlock else None
  end.
Definition is_block_type (t : option tag_type) : bool := match t with Some TBlock => true | _ => false end.

Section rendering.
Variable e : env.
Variable hs : list renderer.
Variable ts : list text_handler.
(** converter/render.go:8-12, ctx.go:168-173: all children of [n] *)
Definition render_kids (rec : render_fn) (c : rctx) (anc : list bytes) (n : node) : res bytes :=
  write_all (map (rec c (node_name n :: anc)) (kids n)).
(** converter/render.go:35-51  handleRenderFallback *)
Definition fallback (rec : render_fn) (c : rctx) (anc : list bytes) (n : node) : res bytes :=
  let nls := if is_block_type (tag_type_of e (node_name n)) then [cNL; cNL] else [] in
  bind (render_kids rec c anc n) (fun x => Done (nls ++ x ++ nls)).
(** converter/render.go:22-32: the handlers in order; what a handler writes before it gives up stays written *)
Fixpoint try_renderers (l : list renderer) (rec : render_fn) (c : rctx) (anc : list bytes) (n : node) : res bytes :=
  match l with
  | [] => fallback rec c anc n
  | h :: r => bind (h e rec c anc n) (fun sw =>
                if fst sw then Done (snd sw) else bind (try_renderers r rec c anc n) (fun x => Done (snd sw ++ x)))
  end.
(** converter/render.go:14-33 and 52-61  handleRenderNode, handleRenderText *)
Fixpoint render (fuel : nat) (c : rctx) (anc : list bytes) (n : node) : res bytes :=
  match fuel with
  | O => OutOfFuel
  | S f =>
      match n with
      | Text d => Done (fold_left (fun s t => t e c s) ts d)
      | _ => try_renderers hs (render f) c anc n
      end
  end.
End rendering.

(** Height of a tree: enough fuel for [render] with the bundled renderers (RenderTotal). *)
Fixpoint height (n : node) : nat :=
  match n with
  | Elem _ _ ks | Doc ks => S (fold_right (fun k h => Nat.max (height k) h) O ks)
  | _ => 1%nat
  end.

(** converter/register.go:156-162  checkIsEscapedChar *)
Definition escaped_char (c : converter) (r : N) : bool := existsb (N.eqb r) (cv_chars c).
(** converter/convert.go:89-97: the context of a conversion; [url] is AssembleAbsoluteURL with the domain of the call *)
Definition env_of (c : converter) (url : bytes -> bytes -> bytes) : env := {|
  tag_type_of := get_tag_type c;
  escape_fn := escape_with (cv_mode c) (escaped_char c);
  unescape_fn := unescape_with (cv_mode c) (in_order (cv_unescape c));
  assemble_url := url |}.

(** converter/convert.go:101-116: the three phases. The document after the pre-render handlers is what gets rendered (Go
    changes it in place). *)
Definition prepared (c : converter) (url : bytes -> bytes -> bytes) (doc : node) : node :=
  fold_left (fun d h => h (env_of c url) d) (in_order (cv_pre c)) doc.
Definition run_conversion (c : converter) (url : bytes -> bytes -> bytes) (doc : node) : res bytes :=
  let e := env_of c url in
  let doc := prepared c url doc in
  bind (render e (in_order (cv_render c)) (in_order (cv_text c)) (S (height doc)) [] [] doc) (fun out =>
  Done (fold_left (fun s h => h e s) (in_order (cv_post c)) out)).

Definition err_no_renderers : bytes := b "no render handlers are registered".
Definition err_base_missing : bytes := b "the base plugin is also required".
Inductive outcome := Failed (e : bytes) | Returned (r : res bytes).
(** converter/convert.go:58-117  ConvertNode *)
Definition convert_node (c : converter) (url : bytes -> bytes -> bytes) (doc : node) : outcome :=
  match cv_err c with
  | Some e => Failed e
  | None =>
      if is_empty (in_order (cv_render c)) then Failed err_no_renderers
      else if existsb (beqb (b "commonmark")) (cv_plugins c) && negb (existsb (beqb (b "base")) (cv_plugins c))
      then Failed err_base_missing
      else Returned (run_conversion c url doc)
  end.
End engine.
