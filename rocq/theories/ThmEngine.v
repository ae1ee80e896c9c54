(** Theorems about the converter: order of handlers, choice of the renderer, errors, state, tag types (C36-C40). *)
From Coq Require Import List NArith ZArith Bool String Sorting.Permutation Sorting.Sorted.
From Verif Require Import Bytes Escape Dom Engine CommonMark State SpecEngine EngineFacts StateFacts.
Import ListNotations.
Open Scope N_scope.
Open Scope list_scope.

(** C36. For every list of calls of Register and every sorting algorithm that returns a sorted permutation: the registered
    pre-renderers are applied to the document in non-decreasing priority, each exactly once. *)
Theorem c36_pre_renderers_in_order : forall sort, sorts sort -> forall calls url doc,
  exists hs, Permutation hs (registered_pre calls) /\ by_priority hs
  /\ let c := do_actions calls empty_converter in
     prepared sort c url doc = fold_left (fun d ph => snd ph (env_of sort c url) d) hs doc.
Proof. exact pre_in_order. Qed.
Print Assumptions c36_pre_renderers_in_order.
(** The same for the post-renderers, applied to what was rendered. *)
Theorem c36_post_renderers_in_order : forall sort, sorts sort -> forall calls url doc,
  let c := do_actions calls empty_converter in
  exists hs, Permutation hs (registered_post calls) /\ by_priority hs
  /\ run_conversion sort c url doc
     = bind (render (env_of sort c url) (in_order sort (cv_render c)) (in_order sort (cv_text c))
                    (S (height (prepared sort c url doc))) [] [] (prepared sort c url doc))
            (fun out => Done (fold_left (fun s ph => snd ph (env_of sort c url) s) hs out)).
Proof. exact post_in_order. Qed.
Print Assumptions c36_post_renderers_in_order.
(** The text transformers, for every text node. *)
Theorem c36_text_transformers_in_order : forall sort, sorts sort -> forall calls e hs cx anc d fuel,
  exists ts, Permutation ts (registered_text calls) /\ by_priority ts
  /\ render e hs (in_order sort (cv_text (do_actions calls empty_converter))) (S fuel) cx anc (Text d)
     = Done (fold_left (fun s pt => snd pt e cx s) ts d).
Proof. exact text_in_order. Qed.
Print Assumptions c36_text_transformers_in_order.
(** The renderers that are tried for a node (see C37). *)
Theorem c36_renderers_in_order : forall sort, sorts sort -> forall calls,
  exists hs, Permutation hs (registered_render calls) /\ by_priority hs
  /\ in_order sort (cv_render (do_actions calls empty_converter)) = map snd hs.
Proof. exact renderers_in_order. Qed.
Print Assumptions c36_renderers_in_order.
(** The un-escape handlers. *)
Theorem c36_unescapers_in_order : forall sort, sorts sort -> forall calls url s,
  exists ds, Permutation ds (registered_unescape calls) /\ by_priority ds
  /\ unescape_fn (env_of sort (do_actions calls empty_converter) url) s = unescape_with Smart (map snd ds) s.
Proof. exact detectors_in_order. Qed.
Print Assumptions c36_unescapers_in_order.
(** The type of a tag is one that was registered with the lowest priority number; without a registration it is block exactly
    for the block names of HTML. *)
Theorem c36_tag_type_lowest : forall sort, sorts sort -> forall calls name,
  match get_tag_type sort (do_actions calls empty_converter) name with
  | Some t =>
      (exists p, In (name, (p, t)) (registered_tags calls) /\ forall q u, In (name, (q, u)) (registered_tags calls) -> (p <= q)%Z)
      \/ (t = TBlock /\ is_block_name name = true /\ forall q u, ~ In (name, (q, u)) (registered_tags calls))
  | None => is_block_name name = false /\ forall q u, ~ In (name, (q, u)) (registered_tags calls)
  end.
Proof. exact tag_lowest. Qed.
Print Assumptions c36_tag_type_lowest.
(** Insertion sort is such an algorithm, and the bundled plugins register handlers out of order. *)
Theorem c36_sorts_exists : sorts stable_sort.
Proof. exact stable_sort_sorts. Qed.
Print Assumptions c36_sorts_exists.
Example c36_example :
  map fst (registered_pre [RegPlugin (strikethrough_plugin []); RegPlugin base_plugin]) = [500; 100; 1000]%Z
  /\ map fst (stable_sort _ (registered_pre [RegPlugin (strikethrough_plugin []); RegPlugin base_plugin])) = [100; 500; 1000]%Z.
Proof. split; reflexivity. Qed.

(** C37. The renderers before the first successful one have given up (having written [ws]); the ones after it do not matter. *)
Theorem c37_first_success_wins : forall e rec c anc n before h after w ws,
  Forall2 (gives_up e rec c anc n) before ws -> h e rec c anc n = Done (true, w) ->
  try_renderers e (before ++ h :: after) rec c anc n = Done (List.concat ws ++ w).
Proof. exact first_success. Qed.
Print Assumptions c37_first_success_wins.
(** If all give up, the children are rendered; two newlines are put around them exactly if the tag type is block. *)
Theorem c37_fallback : forall e rec c anc n hs ws out,
  Forall2 (gives_up e rec c anc n) hs ws -> write_all (map (rec c (node_name n :: anc)) (kids n)) = Done out ->
  try_renderers e hs rec c anc n
  = Done (List.concat ws ++ (if is_block_type (tag_type_of e (node_name n)) then [10; 10] ++ out ++ [10; 10] else out)).
Proof. exact none_success. Qed.
Print Assumptions c37_fallback.
Example c37_example :
  let e := env_of stable_sort empty_converter (fun _ u => u) in
  let rec := fun _ _ _ => Done (b "x") in
  let n := Elem (b "del") [] [Text (b "y")] in
  Forall2 (gives_up e rec [] [] n) [render_comment] [[]]
  /\ strike_render (b "~~") e rec [] [] n = Done (true, b "~~x~~")
  /\ try_renderers e [render_comment; strike_render (b "~~"); render_as_plaintext_wrapper] rec [] [] n = Done (b "~~x~~").
Proof. repeat split; repeat constructor. Qed.

(** C38. If a call went wrong (a plugin without a name, an error from Init, an error of an option), when the converter was made or
    later, every conversion fails, whatever other calls were made before or after. *)
Theorem c38_error_sticks : forall sort os calls url doc,
  existsb option_wrong os || existsb goes_wrong calls = true ->
  exists m, convert_node sort (do_actions calls (new_converter os)) url doc = Failed m.
Proof. exact error_sticks. Qed.
Print Assumptions c38_error_sticks.
Theorem c38_no_error : forall sort os calls url doc, sorts sort ->
  existsb option_wrong os = false -> existsb goes_wrong calls = false ->
  registered_render (flat_map option_calls os ++ calls) <> [] ->
  (In (b "commonmark") (flat_map plugin_names (flat_map option_calls os ++ calls)) ->
   In (b "base") (flat_map plugin_names (flat_map option_calls os ++ calls))) ->
  exists r, convert_node sort (do_actions calls (new_converter os)) url doc = Returned r.
Proof. exact no_error. Qed.
Print Assumptions c38_no_error.
Example c38_example :
  goes_wrong (RegPlugin (Plugin (b "p") [RegPlugin (Plugin [] [] None)] None)) = true
  /\ goes_wrong (RegPlugin base_plugin) = false
  /\ registered_render [RegPlugin base_plugin; RegPlugin (strikethrough_plugin [])] <> []
  /\ flat_map plugin_names [RegPlugin base_plugin; RegPlugin (strikethrough_plugin [])] = [b "base"; b "strikethrough"].
Proof. repeat split; try reflexivity. discriminate. Qed.

(** C39. Whatever operations several conversions make, interleaved in any way: what conversion [id] reads for a key depends only
    on its own operations, and is the last value it wrote (updates apply to the value before). *)
Theorem c39_state_isolated : forall id ty k ops,
  get_state ty k (nth id (run_ops ops []) [])
  = match value_after k (rev (ops_of id ops)) with Some (t, x) => if t =? ty then x else [] | None => [] end.
Proof. exact get_state_isolated. Qed.
Print Assumptions c39_state_isolated.
Example c39_state_example :
  let ops := [(0%nat, SetState 1 (b "k") (b "v")); (1%nat, SetState 1 (b "k") (b "w"));
              (0%nat, UpdateState 1 (b "k") (fun x => x ++ x))] in
  get_state 1 (b "k") (nth 0 (run_ops ops []) []) = b "vv" /\ get_state 1 (b "k") (nth 1 (run_ops ops []) []) = b "w"
  /\ get_state 2 (b "k") (nth 0 (run_ops ops []) []) = [].
Proof. repeat split. Qed.
(** Looking up tag types re-orders the stored slices but keeps what was registered, ... *)
Theorem c39_lookups_keep_registrations : forall sort, sorts sort -> forall ns m t,
  Permutation (table_get m (lookups sort ns t)) (table_get m t).
Proof. exact lookups_keep. Qed.
Print Assumptions c39_lookups_keep_registrations.
(** ... with insertion sort (at most 12 types per tag) no answer changes, whatever was looked up before, ... *)
Theorem c39_lookups_keep_answers : forall ns m t,
  fst (lookup stable_sort m (lookups stable_sort ns t)) = fst (lookup stable_sort m t).
Proof. exact lookups_stable. Qed.
Print Assumptions c39_lookups_keep_answers.
(** ... and the answer is the one of the model of the converter. *)
Theorem c39_lookup_is_model : forall sort, sorts sort -> forall n t c,
  (forall m, table_get m t = types_for m (cv_tags c)) -> fst (lookup sort n t) = get_tag_type sort c n.
Proof. exact lookup_answer. Qed.
Print Assumptions c39_lookup_is_model.
Example c39_lookup_example :
  let t := [(b "x", [(500, TRemove); (100, TInline)]%Z)] in
  lookup stable_sort (b "x") t = (Some TInline, [(b "x", [(100, TInline); (500, TRemove)]%Z)])
  /\ fst (lookup stable_sort (b "x") (lookups stable_sort [b "x"; b "y"; b "x"] t)) = Some TInline.
Proof. repeat split. Qed.

(** C40. One goroutine alone: the machine sorts the slice and returns the type with the lowest number. *)
Theorem c40_one_goroutine : forall mem, mem <> [] ->
  exists k, run_threads (repeat O k) [thread_start] mem
            = ([Returned_type (match stable_sort _ mem with x :: _ => Some (snd x) | [] => None end)], stable_sort _ mem).
Proof. exact one_goroutine. Qed.
Print Assumptions c40_one_goroutine.
(** Any number of goroutines in any interleaving, if the types are already in order: nothing is written and all that finish get
    the first type. Missing: types registered out of order (see below). *)
Theorem c40_sorted_types_partial : forall n schedule mem, by_priority mem ->
  let '(ts, mem') := run_threads schedule (repeat thread_start n) mem in
  mem' = mem /\ all_got (match mem with x :: _ => Some (snd x) | [] => None end) ts.
Proof. exact sorted_goroutines. Qed.
Print Assumptions c40_sorted_types_partial.
Example c40_sorted_example :
  by_priority [(100, TInline); (500, TRemove)]%Z
  /\ run_threads [0; 1; 1; 0; 0; 0; 1; 1; 0; 1]%nat [thread_start; thread_start] [(100, TInline); (500, TRemove)]%Z
     = ([Returned_type (Some TInline); Returned_type (Some TInline)], [(100, TInline); (500, TRemove)]%Z).
Proof. split; [|reflexivity]. repeat constructor; discriminate. Qed.
(** Refuted in general: two goroutines sort the same slice under the read lock. One of them returns the wrong type ... *)
Theorem c40_wrong_type_refuted : exists mem schedule,
  let '(ts, _) := run_threads schedule [thread_start; thread_start] mem in
  mem = [(500, TRemove); (100, TInline)]%Z /\ ts = [Returned_type (Some TInline); Returned_type (Some TRemove)].
Proof.
  exists [(500, TRemove); (100, TInline)]%Z, [0; 0; 1; 1; 0; 0; 0; 0; 0; 0; 1; 1; 1; 1; 1; 1]%nat.
  vm_compute. split; reflexivity.
Qed.
Print Assumptions c40_wrong_type_refuted.
(** ... or a registration is lost for good: afterwards even a single goroutine gets the wrong type. *)
Theorem c40_lost_registration_refuted : exists mem schedule,
  let '(_, mem') := run_threads schedule [thread_start; thread_start] mem in
  mem = [(500, TRemove); (100, TInline)]%Z /\ mem' = [(500, TRemove); (500, TRemove)]%Z
  /\ run_threads (repeat 0 5)%nat [thread_start] mem' = ([Returned_type (Some TRemove)], mem').
Proof.
  exists [(500, TRemove); (100, TInline)]%Z, [1; 1; 0; 0; 0; 0; 1; 1; 0; 1; 0; 0; 0; 1; 1; 1]%nat.
  vm_compute. repeat split; reflexivity.
Qed.
Print Assumptions c40_lost_registration_refuted.
