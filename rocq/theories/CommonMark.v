(** Model of plugin/base, plugin/commonmark and plugin/strikethrough on top of Engine.v and RenderText.v: the renderers that walk
    the tree, the handlers and the plugins as lists of calls of Register. No proofs in this file. *)
From Coq Require Import List NArith ZArith Bool String.
From Verif Require Import Bytes TextUtils Escape Dom DomUtils Collapse RenderText Engine.
Import ListNotations.
Open Scope N_scope.
Open Scope list_scope.

(** converter/prioritized.go:9-13 *)
Definition prio_early : Z := 100%Z.
Definition prio_standard : Z := 500%Z.
Definition prio_late : Z := 1000%Z.

(** Rendering into one buffer per node *)
Fixpoint all_done {A} (rs : list (res A)) : res (list A) :=
  match rs with
  | [] => Done []
  | r :: rest => bind r (fun x => bind (all_done rest) (fun l => Done (x :: l)))
  end.

(** ---------- plugin/base ---------- *)

(** plugin/base/base.go:30-42 *)
Definition removed_names : list bytes := map b
  ["#comment"; "head"; "script"; "style"; "link"; "meta"; "iframe"; "noscript"; "input"; "textarea"]%string.
(** plugin/base/base.go:60-86  preRenderRemove *)
Definition is_remove_type (t : option tag_type) : bool := match t with Some TRemove => true | _ => false end.
Definition pre_remove : pre_handler := fun e doc =>
  merge_text (remove_root (fun name => is_remove_type (tag_type_of e name)) doc).
(** plugin/base/base.go:88-100  preRenderCollapse. Engine.get_tag_type gives TBlock for the block names and None for a name that
    is not known, so both branches of the Go function agree with one test. *)
Definition pre_collapse : pre_handler := fun e doc =>
  collapse (fun name => is_block_type (tag_type_of e name)) doc.
(** plugin/base/base.go:102-112: the replacer looks for single bytes *)
Fixpoint entity_replace (s : bytes) : bytes :=
  match s with
  | [] => []
  | c :: t => (if c =? 60 then b "&lt;" else if c =? 62 then b "&gt;" else [c]) ++ entity_replace t
  end.
(** plugin/base/base.go:114-125  handleTextTransform *)
Definition base_text : text_handler := fun e _ s => escape_fn e (entity_replace s).
(** plugin/base/base.go:127-140 *)
Definition base_trim : post_handler := fun _ s => post_trim s.
Definition base_unescape : post_handler := fun e s => unescape_fn e s.
(** plugin/base/base.go:29-58  Init *)
Definition base_plugin : plugin := Plugin (b "base")
  (map (fun n => RegTag n TRemove prio_standard) removed_names
   ++ [RegPre pre_remove prio_early; RegPre pre_collapse prio_late; RegText base_text prio_standard;
       RegPost base_trim prio_standard; RegPost base_unescape (prio_standard + 20)%Z]) None.

(** plugin/base/renderers.go:16-30  RenderAsHTML; [html] is html.Render (not part of /repo) *)
Definition block_newlines (e : env) (n : node) : bytes :=
  if is_block_type (tag_type_of e (node_name n)) then [cNL; cNL] else [].
Definition render_as_html (html : node -> bytes) : renderer := fun e _ _ _ n =>
  Done (true, block_newlines e n ++ html n ++ block_newlines e n).
(** plugin/base/renderers.go:34-48  RenderAsHTMLWrapper *)
Definition render_as_html_wrapper : renderer := fun e rec c anc n =>
  bind (render_kids rec c anc n) (fun x =>
  Done (true, [60] ++ node_name n ++ [62; cNL; cNL] ++ x ++ [cNL; cNL; 60; 47] ++ node_name n ++ [62])).
(** plugin/base/renderers.go:51-64  RenderAsPlaintextWrapper *)
Definition render_as_plaintext_wrapper : renderer := fun e rec c anc n =>
  bind (render_kids rec c anc n) (fun x => Done (true, block_newlines e n ++ x ++ block_newlines e n)).

(** ---------- plugin/commonmark ---------- *)

(** plugin/commonmark/handle_pre_render.go:10-58. dom.NodeName gives such a name only for elements. *)
Definition bold_names : list bytes := [b "strong"; b "b"].
Definition italic_names : list bytes := [b "em"; b "i"].
Definition inline_code_names : list bytes := [b "code"; b "var"; b "samp"; b "kbd"; b "tt"].
Definition heading_names : list bytes := [b "h1"; b "h2"; b "h3"; b "h4"; b "h5"; b "h6"].
Definition is_bold_or_italic : node -> bool := named (bold_names ++ italic_names).
Definition is_inline_code_node : node -> bool := named inline_code_names.
Definition is_pre : node -> bool := named [b "pre"].
Definition is_link : node -> bool := named [b "a"].
Definition is_heading : node -> bool := named heading_names.
Definition class_bold_italic (x : bytes) : option N :=
  if name_in bold_names x then Some 1 else if name_in italic_names x then Some 2 else None.
Definition class_link (x : bytes) : option N := if beqb x (b "a") then Some 1 else None.
(** plugin/commonmark/handle_pre_render.go:63-97  handlePreRender *)
Definition commonmark_pre : pre_handler := fun _ doc =>
  let doc := rename_fake_spans doc in
  let doc := remove_redundant class_bold_italic doc in
  let doc := merge_adjacent is_bold_or_italic doc in
  let doc := remove_empty_code doc in
  let doc := swap_tags is_inline_code_node is_pre doc in
  let doc := merge_adjacent is_inline_code_node doc in
  let doc := add_space_root is_bold_or_italic is_inline_code_node doc in
  let doc := remove_redundant class_link doc in
  let doc := swap_tags is_bold_or_italic is_link doc in
  let doc := swap_tags is_link is_heading doc in
  let doc := leaf_block_alternatives doc in
  move_list_items doc.
(** plugin/commonmark/commonmark.go:144-153 *)
Definition commonmark_end_comments (cfg : config) : pre_handler := fun _ doc =>
  if disable_end_comment cfg then doc else add_list_end_comments doc.

(** plugin/commonmark/render_bold_italic.go:12-40  getDelimiter, renderBoldItalic *)
Definition delimiter_of (cfg : config) (name : bytes) : bytes :=
  if name_in bold_names name then strong_delimiter cfg
  else if name_in italic_names name then em_delimiter cfg
  else [].
Definition render_bold_italic (cfg : config) : renderer := fun e rec c anc n =>
  bind (render_kids rec c anc n) (fun x => Done (true, emphasis_text (delimiter_of cfg (node_name n)) x)).

(** plugin/commonmark/render_code.go:110-149  getCodeWithoutTags: the text ... *)
Definition code_skipped : list bytes := [b "style"; b "script"; b "textarea"].
Fixpoint code_text (n : node) : bytes :=
  match n with
  | Text d => d
  | Elem x _ ks =>
      if name_in code_skipped x then []
      else (if name_in [b "br"; b "div"] x then [cNL] else []) ++ flat_map code_text ks
  | Doc ks => flat_map code_text ks
  | _ => []
  end.
(** ... and the info string: the first language that is not empty. Go stops to look once it has one. *)
Fixpoint code_languages (n : node) : list bytes :=
  match n with
  | Elem x a ks =>
      (if name_in [b "code"; b "pre"] x then [code_language (attr_or (b "class") [] a)] else [])
      ++ (if name_in code_skipped x then [] else flat_map code_languages ks)
  | Doc ks => flat_map code_languages ks
  | _ => []
  end.
Definition code_info (n : node) : bytes := hd [] (filter (fun l => negb (is_empty l)) (code_languages n)).
Definition render_inline_code : renderer := fun _ _ _ _ n => Done (true, inline_code_text (code_text n)).
Definition render_block_code (cfg : config) : renderer := fun _ _ _ _ n =>
  Done (true, block_code_text (code_fence_opt cfg) (code_info n) (code_text n)).

(** plugin/commonmark/render_blockquote.go:11-34 *)
Definition render_blockquote : renderer := fun e rec c anc n =>
  bind (render_kids rec c anc n) (fun x => Done (true, blockquote_text x)).

(** plugin/commonmark/render_heading.go:28-46  getHeadingLevel *)
Definition heading_level (name : bytes) : nat :=
  if beqb name (b "h1") then 1 else if beqb name (b "h2") then 2 else if beqb name (b "h3") then 3
  else if beqb name (b "h4") then 4 else if beqb name (b "h5") then 5 else 6.
(** plugin/commonmark/render_heading.go:104-150 *)
Definition render_heading (cfg : config) : renderer := fun e rec c anc n =>
  bind (render_kids rec c anc n) (fun x =>
  match heading_text (beqb (heading_style cfg) (b "setext")) (heading_level (node_name n)) x with
  | Some t => Done (true, t)
  | None => Panic
  end).

(** plugin/commonmark/render_image.go:30-64  renderImage *)
Definition render_image : renderer := fun e _ _ _ n =>
  let src := trim_space (node_attr n (b "src") []) in
  if is_empty src then Done (false, [])
  else Done (true, image_text (assemble_url e (b "img") src) (node_attr n (b "title") []) (node_attr n (b "alt") [])).

(** plugin/commonmark/render_link.go:47-99  renderLink *)
Definition inside_link_key : bytes := b "is_inside_link".
Definition render_link (cfg : config) : renderer := fun e rec c anc n =>
  let c := (inside_link_key, true) :: c in
  let href := assemble_url e (b "a") (trim_space (node_attr n (b "href") [])) in
  if is_empty href && beqb (link_empty_href cfg) (b "skip") then Done (false, [])
  else
    bind (render_kids rec c anc n) (fun x =>
    match link_text cfg href (node_attr n (b "title") []) x with
    | Some t => Done (true, t)
    | None => Done (false, [])
    end).

(** plugin/commonmark/render_list.go:68-113  renderListContainer. getStartAt reads the attribute with the default 1. *)
Definition render_list (cfg : config) : renderer := fun e rec c anc n =>
  bind (all_done (map (rec c (node_name n :: anc)) (kids n))) (fun items =>
  Done (true, list_text (unescape_fn e) (beqb (node_name n) (b "ul")) (bullet_marker cfg)
                        (start_at (Some (node_attr n (b "start") (b "1")))) items)).

(** plugin/commonmark/render_comment.go:9-27  renderComment; html.Render of the comment THE END (no byte to escape) *)
Definition render_comment : renderer := fun _ _ _ _ n =>
  match n with
  | Comment d => if beqb d end_comment_data then Done (true, end_comment_text d) else Done (false, [])
  | _ => Done (false, [])
  end.

(** plugin/commonmark/handle_render.go:9-49  handleRender *)
Definition commonmark_render (cfg : config) : renderer := fun e rec c anc n =>
  let name := node_name n in
  if name_in (bold_names ++ italic_names) name then render_bold_italic cfg e rec c anc n
  else if beqb name (b "hr") then Done (true, divider_text (horizontal_rule cfg))
  else if beqb name (b "br") then Done (true, break_text)
  else if is_list_name name then render_list cfg e rec c anc n
  else if beqb name (b "pre") then render_block_code cfg e rec c anc n
  else if name_in inline_code_names name then render_inline_code e rec c anc n
  else if beqb name (b "blockquote") then render_blockquote e rec c anc n
  else if name_in heading_names name then render_heading cfg e rec c anc n
  else if beqb name (b "img") then render_image e rec c anc n
  else if beqb name (b "a") then render_link cfg e rec c anc n
  else if beqb name (b "#comment") then render_comment e rec c anc n
  else Done (false, []).

(** plugin/commonmark/commonmark.go:194-206  handleTextTransform *)
Definition commonmark_text : text_handler := fun _ c s =>
  if ctx_value inside_link_key c then replace_all [marker_esc; 93] [92; 93] s else s.
Definition commonmark_post : post_handler := fun _ s => post_newline s.

(** plugin/commonmark/commonmark.go:119-184  NewCommonmarkPlugin and Init; [cfg] is the config after the options *)
Definition commonmark_plugin (cfg : config) : plugin :=
  let cfg := fill_defaults cfg in
  match validate_config cfg with
  | Some key => Plugin (b "commonmark") [] (Some key)
  | None => Plugin (b "commonmark")
      ([RegPre commonmark_pre prio_standard; RegPre (commonmark_end_comments cfg) (prio_late + 100)%Z;
        RegChars commonmark_escaped]
       ++ map (fun d => RegUnescape d prio_standard) commonmark_detectors
       ++ [RegRender (commonmark_render cfg) prio_standard; RegText commonmark_text prio_late;
           RegPost commonmark_post prio_late]) None
  end.

(** ---------- plugin/strikethrough ---------- *)

(** plugin/strikethrough/strikethrough.go:77-84 *)
Definition strike_names : list bytes := [b "del"; b "s"; b "strike"].
Definition is_strike : node -> bool := named strike_names.
Definition class_strike (x : bytes) : option N := if name_in strike_names x then Some 1 else None.
(** plugin/strikethrough/strikethrough.go:55-58  handlePreRender *)
Definition strike_pre : pre_handler := fun _ doc => merge_adjacent is_strike (remove_redundant class_strike doc).
(** plugin/strikethrough/strikethrough.go:86-110  handleRender, renderStrikethrough *)
Definition strike_render (delim : bytes) : renderer := fun e rec c anc n =>
  if name_in strike_names (node_name n)
  then bind (render_kids rec c anc n) (fun x => Done (true, emphasis_text delim x))
  else Done (false, []).
(** plugin/strikethrough/strikethrough.go:25-53  NewStrikethroughPlugin, Init *)
Definition strikethrough_plugin (delimiter : bytes) : plugin :=
  let delimiter := or_default delimiter (b "~~") in
  Plugin (b "strikethrough")
    [RegPre strike_pre prio_standard; RegChars [126]; RegUnescape is_strikethrough prio_standard;
     RegRender (strike_render delimiter) prio_standard] None.
