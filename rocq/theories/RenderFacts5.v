(** Final forms of the lemmas about text utilities and renderers, as stated in ThmText.v. *)
From Coq Require Import List NArith ZArith Bool Lia ZifyBool ZifyNat ZifyN String.
From Verif Require Import Bytes TextUtils RenderText BytesFacts SpecText TextFacts TextFacts2 RenderFacts RenderFacts2 RenderFacts3 RenderFacts4.
Import ListNotations.
Open Scope N_scope.
Open Scope list_scope.

Lemma collapse_go_iff s o : collapsed s o <-> o = replace_any_whitespace_go s.
Proof. rewrite replace_any_whitespace_go_eq. apply collapse_ws_iff. Qed.
Lemma collapse_go_idem s : replace_any_whitespace_go (replace_any_whitespace_go s) = replace_any_whitespace_go s.
Proof. rewrite !replace_any_whitespace_go_eq. apply collapse_ws_idem. Qed.

Lemma tcn_go_final s : newline_squeeze s (trim_consecutive_newlines_go s) /\ ~ three_newlines (trim_consecutive_newlines_go s).
Proof. rewrite tcn_go_eq. split; [apply trim_newlines_squeeze|apply trim_newlines_none]. Qed.
Lemma tcn_go_idem s : trim_consecutive_newlines_go (trim_consecutive_newlines_go s) = trim_consecutive_newlines_go s.
Proof. rewrite !tcn_go_eq. apply trim_newlines_idem. Qed.
Lemma tcn_go_lines s : text_lines (trim_consecutive_newlines_go s) = text_lines s.
Proof. rewrite tcn_go_eq. apply trim_newlines_text_lines. Qed.

Lemma fence_final f code : f < 128 ->
  exists n, calculate_code_fence f code = repeat f n /\ (3 <= n)%nat /\ forall k, has_run f k code -> (k < n)%nat.
Proof.
  intros H. exists (List.length (calculate_code_fence f code)). split.
  - unfold calculate_code_fence. now rewrite repeat_length.
  - split; [unfold calculate_code_fence; rewrite repeat_length; lia|]. intros k R. now apply code_fence_longer.
Qed.

(** C21 *)
Lemma block_final fopt info code rest : fopt = b "```" \/ fopt = b "~~~" -> ~ In 10 info -> ~ In 96 info -> ~ In 126 info ->
  ~ infix marker_nl info -> ~ infix marker_nl code ->
  exists B, post_newline (block_code_text fopt info code ++ rest) = [10; 10] ++ B /\
  read_fenced (hd 0 fopt) (split_on 10 B) = Some (info, split_on 10 (drop_last_newline code), split_on 10 ([10] ++ post_newline rest)).
Proof.
  intros F I B T Mi Mc. assert (Fh : hd 96 fopt = hd 0 fopt /\ (hd 0 fopt = 96 \/ hd 0 fopt = 126)) by (destruct F; subst; cbn; auto).
  destruct Fh as [Fh1 Fh2]. rewrite block_code_final by (rewrite ?Fh1; auto). cbv zeta. rewrite Fh1. eexists. split; [reflexivity|].
  change ([10; 10] ++ post_newline rest) with ([10] ++ ([10] ++ post_newline rest)). apply read_block; auto.
  destruct info as [|c info]; [reflexivity|]. cbn. apply N.eqb_neq. intros ->. destruct Fh2 as [E|E]; rewrite E in *; cbn in *; tauto.
Qed.
Lemma drop_last_spec code : drop_last_newline code = code /\ last_is 10 code = false \/ code = drop_last_newline code ++ [10].
Proof.
  unfold drop_last_newline. rewrite has_suffix_last. unfold cNL. destruct (last_is 10 code) eqn:E; [right|now left].
  rewrite <- has_suffix_last in E. apply has_suffix_iff in E as [r ->]. now rewrite removelast_last.
Qed.

(** C22 *)
Lemma code_collapse_sound s : forall p, exists w, Forall code_blank w /\ (p = false -> w = []) /\
  exists s', s = w ++ s' /\ (p = true -> match s' with [] => True | c :: _ => ~ code_blank c end) /\
  run_collapsed code_blank s' (squeeze_spaces p (map to_space s)).
Proof.
  induction s as [|c t IH]; intros p.
  - exists []. split; [constructor|]. split; [easy|]. exists []. repeat split; constructor.
  - cbn [map squeeze_spaces]. destruct ((c =? 32) || (c =? 10) || (c =? 9)) eqn:E.
    + assert (Bl : code_blank c) by (unfold code_blank; lia).
      assert (Sp : to_space c = 32) by (unfold to_space; destruct ((c =? 10) || (c =? 9)) eqn:E2; lia).
      rewrite Sp. change (32 =? cSP) with true. cbn iota. destruct (IH true) as (w & F & _ & s' & E1 & S & C). destruct p.
      * exists (c :: w). split; [now constructor|]. split; [easy|]. exists s'. subst t. auto.
      * exists []. split; [constructor|]. split; [easy|]. exists (c :: t). split; [easy|]. split; [easy|].
        subst t. apply (col_run code_blank (c :: w)); [easy|now constructor|now apply S|exact C].
    + assert (Bl : ~ code_blank c) by (unfold code_blank; lia).
      assert (Sp : to_space c = c) by (unfold to_space; destruct ((c =? 10) || (c =? 9)) eqn:E2; lia).
      rewrite Sp. replace (c =? cSP) with false by (unfold cSP; lia).
      destruct (IH false) as (w & F & W & s' & E1 & S & C). rewrite (W eq_refl) in E1. cbn in E1. subst s'.
      exists []. split; [constructor|]. split; [easy|]. exists (c :: t). split; [easy|]. split; [easy|]. now constructor.
Qed.
Lemma inline_collapse_spec code : trim_space code <> [] ->
  exists l t r, code = l ++ t ++ r /\ spaces l /\ spaces r /\ hugs t /\ run_collapsed code_blank t (collapse_inline_code code).
Proof.
  intros N. destruct (trim_space_spaces code) as (l & r & E & Sl & Sr). exists l, (trim_space code), r. split; [easy|]. split; [easy|]. split; [easy|].
  split; [split; [easy|split; [now apply trim_space_starts|now apply trim_space_ends]]|].
  rewrite collapse_inline_code_eq, (trim_space_to_space _ to_space_map).
  destruct (code_collapse_sound (trim_space code) false) as (w & _ & W & s' & E1 & _ & C). rewrite (W eq_refl) in E1. cbn in E1. now subst s'.
Qed.
Lemma inline_span code rest : ~ spaces code -> first_is 96 rest = false ->
  exists inner, read_code_span (inline_code_text code ++ rest) = Some (inner, rest).
Proof. intros N F. eexists. apply inline_code_read; auto. intros E. now apply trim_space_nil in E. Qed.
Lemma inline_round_trip code rest : ~ spaces code -> first_is 96 rest = false ->
  let c := collapse_inline_code code in
  (read_code_span (inline_code_text code ++ rest) = Some (c, rest) <-> first_is 96 c = last_is 96 c).
Proof.
  intros Ns F c. assert (T : trim_space code <> []) by (intros E; now apply trim_space_nil in E).
  rewrite inline_code_read by easy. fold c. rewrite span_content_padded.
  - destruct (Bool.eqb (first_is 96 c) (last_is 96 c)) eqn:E.
    + apply Bool.eqb_prop in E. now rewrite E.
    + split; [|intros H; rewrite H, Bool.eqb_reflx in E; discriminate]. intros [= H]. exfalso.
      apply (f_equal (@List.length N)) in H. unfold padded in H. rewrite !app_length in H.
      destruct (first_is 96 c), (last_is 96 c); cbn in H, E; try discriminate; lia.
  - now apply inline_nonempty.
  - apply inline_no_newline.
  - apply inline_first.
  - apply inline_last.
Qed.

(** Visible characters *)
Lemma inked_replace old new s : old <> [] -> inked old = [] -> inked new = [] -> inked (replace_all old new s) = inked s.
Proof.
  intros No Ho Hn. remember (List.length s) as n eqn:L. revert s L. induction n as [n IH] using lt_wf_ind. intros s L.
  destruct s as [|c t]; [reflexivity|]. rewrite replace_all_cons. destruct (has_prefix old (c :: t)) eqn:P.
  - apply has_prefix_iff in P as [r P]. destruct old as [|o old]; [easy|]. injection P as -> ->. cbn [List.length pred].
    rewrite skipn_app, skipn_all, Nat.sub_diag. cbn [app skipn]. rewrite inked_app, Hn. cbn [app].
    rewrite (IH (List.length r)); [|subst n; cbn; rewrite app_length; lia|easy].
    change (o :: old ++ r) with ((o :: old) ++ r). now rewrite inked_app, Ho.
  - unfold inked in *. cbn [filter]. rewrite (IH (List.length t)); [reflexivity|subst n; cbn; lia|easy].
Qed.
Lemma inked_hard s : inked (trim_hard_breaks s) = inked s.
Proof. unfold trim_hard_breaks. cbv zeta. rewrite !inked_replace by (easy || reflexivity). reflexivity. Qed.
Lemma inked_spaces32 k : inked (repeat 32 k) = [].
Proof. induction k; [reflexivity|]. exact IHk. Qed.
Lemma inked_tcn s : inked (trim_consecutive_newlines s) = inked s.
Proof.
  pose proof (trim_newlines_squeeze s) as H. induction H as [|x p q z o H IH]; [reflexivity|]. rewrite IH, !inked_app, inked_spaces32. cbn.
  now rewrite inked_spaces32.
Qed.
Lemma inked_blank s : spaces s -> inked s = [].
Proof. intros H. rewrite <- inked_trim. apply trim_space_nil in H. now rewrite H. Qed.
Lemma inked_left s : inked (trim_left s) = inked s.
Proof.
  destruct (trim_left_spaces s) as (l & E & S). rewrite E at 2. rewrite inked_app, (inked_blank _ S). reflexivity.
Qed.
Lemma inked_parts ps : inked (escape_multi_parts ps) = List.concat (map inked ps).
Proof.
  induction ps as [|p ps IH]; [reflexivity|]. cbn [escape_multi_parts map List.concat]. cbv zeta. rewrite inked_app, IH. f_equal.
  pose proof (inked_left p) as L. destruct (trim_left p) as [|c t]; cbn [is_empty]; [rewrite <- L; reflexivity|].
  destruct (is_empty ps); [easy|]. destruct (has_suffix _ _); rewrite inked_app, L; cbn; now rewrite app_nil_r.
Qed.
Lemma inked_split s : List.concat (map inked (split_on 10 s)) = inked s.
Proof.
  induction s as [|c s IH]; [reflexivity|]. cbn [split_on]. destruct (c =? 10) eqn:E.
  - apply N.eqb_eq in E. subst c. cbn [map List.concat]. now rewrite IH.
  - pose proof (split_on_ne 10 s) as N. destruct (split_on 10 s) as [|h t]; [easy|]. cbn [map List.concat] in *. rewrite <- (app_nil_l s) in IH.
    change (c :: h) with ([c] ++ h). change (c :: s) with ([c] ++ s). rewrite !inked_app, <- app_assoc. f_equal. exact IH.
Qed.
Lemma inked_multi s : inked (escape_multi_line s) = inked s.
Proof.
  unfold escape_multi_line, cNL. pose proof (inked_split s) as E. destruct (split_on 10 s) as [|p [|q ps]]; [now rewrite inked_parts, E|reflexivity|now rewrite inked_parts, E].
Qed.

(** C24 *)
Lemma multi_line_final s : s <> [] -> is_space_rune (fst (decode_last_rune s)) = false -> ~ spaces s ->
  (split_on 10 s = [s] /\ escape_multi_line s = s) \/
  exists ls l os o, split_on 10 s = ls ++ [l] /\ split_on 10 (escape_multi_line s) = os ++ [o] /\ Forall2 broken_line ls os /\ last_line l o.
Proof.
  intros N R Ns. destruct (escape_multi_spec s) as [(ps & p & q & E & Np & E2)|[(ps & p & q & E & Np)|[E E2]]].
  - right. exists (ps ++ [q]), p, (map multi_line (ps ++ [q])), (trim_left p). split; [now rewrite E, <- app_assoc|]. split; [easy|]. split.
    + clear E E2. induction (ps ++ [q]) as [|x xs IH]; cbn [map]; constructor; [apply multi_line_broken|exact IH].
    + destruct (trim_left_text p Np) as (l & El & Sl & Rl). rewrite El at 1. now constructor.
  - exfalso. apply visible_last_line in R; [|easy]. apply R. rewrite E. replace (ps ++ [q; p]) with ((ps ++ [q]) ++ [p]) by now rewrite <- app_assoc. now rewrite last_last.
  - now left.
Qed.
Lemma no_blank_line s : trim_left (last (split_on 10 s) []) <> [] -> ~ spaces s -> forall l, In l (split_on 10 (escape_multi_line s)) -> ~ spaces l.
Proof.
  intros L Ns l I. destruct (escape_multi_spec s) as [(ps & p & q & E & Np & E2)|[(ps & p & q & E & Np)|[E E2]]].
  - rewrite E2 in I. apply in_app_iff in I as [I|[<-|[]]].
    + apply in_map_iff in I as (x & <- & _). eapply broken_line_nonblank. apply multi_line_broken.
    + destruct (trim_left_text p Np) as (l0 & _ & _ & R). now apply not_spaces.
  - exfalso. apply L. rewrite E. replace (ps ++ [q; p]) with ((ps ++ [q]) ++ [p]) by now rewrite <- app_assoc. now rewrite last_last.
  - rewrite E2, E in I. destruct I as [<-|[]]. exact Ns.
Qed.
Lemma link_final c href title content out : link_text c href title content = Some out -> ~ spaces content ->
  exists l body r, out = l ++ [91] ++ body ++ [93] ++ dest_and_title href (if is_empty href then [] else replace_all [10] [32] title) ++ r /\
    spaces l /\ spaces r /\ (forall x, In x (split_on 10 body) -> ~ spaces x) /\ inked body = inked content.
Proof.
  unfold link_text. intros H Ns. destruct (is_empty href && _); [discriminate|]. destruct (is_empty (trim_space content) && _); [discriminate|].
  pose proof (surrounding_spaces_spec content) as S. destruct (surrounding_spaces content) as [[l t] r].
  destruct S as (E & Sl & Sr & Ht). destruct (beqb (link_style c) _); [|discriminate]. injection H as <-.
  exists l, (escape_multi_line (trim_consecutive_newlines t)). exists r.
  split; [reflexivity|]. split; [easy|]. split; [easy|]. split.
  - destruct Ht as [->|(Nt & R1 & R2)].
    + exfalso. apply Ns. subst content. cbn. now apply spaces_app.
    + apply no_blank_line.
      * rewrite trim_newlines_last. now apply visible_last_line.
      * apply tcn_nonblank. now apply not_spaces.
  - rewrite inked_multi, inked_tcn, E, !inked_app, (inked_blank _ Sl), (inked_blank _ Sr). now rewrite app_nil_r.
Qed.

Lemma setext_final level s : (level = 1 \/ level = 2)%nat -> trim_left (last (split_on 10 s) []) <> [] ->
  exists body w, heading_text true level s = Some ([10; 10] ++ body ++ [10] ++ repeat (if Nat.eqb level 1 then 61 else 45) w ++ [10; 10]) /\
  (3 <= w)%nat /\ (forall l, In l (split_on 10 body) -> (rune_width l <= w)%nat /\ ~ spaces l) /\ inked body = inked s.
Proof.
  intros Hl L. destruct (setext_heading level s Hl L) as (body & w & E & W & F & B). exists body, w. split; [easy|]. split; [easy|]. split; [easy|].
  now rewrite B, inked_multi, inked_tcn.
Qed.

(** C25 *)
Lemma blockquote_final content : ~ spaces content ->
  exists q body, blockquote_text content = [10; 10] ++ q ++ [10; 10] /\ split_on 10 q = map (app [62; 32]) (split_on 10 body) /\ inked body = inked content.
Proof.
  intros Ns. unfold blockquote_text. cbv zeta. destruct (trim_space content) as [|c t] eqn:T; [now apply trim_space_nil in T|]. cbn [is_empty].
  eexists. exists (trim_hard_breaks (trim_consecutive_newlines (c :: t))). split; [reflexivity|]. split.
  - apply prefix_lines_split. cbn. intuition discriminate.
  - rewrite inked_hard, inked_tcn, <- T. apply inked_trim.
Qed.

(** C29 *)
Lemma alt_kept s : forall p, filter (fun c => negb (c =? 92)) (escape_alt_from p s) = filter (fun c => negb (c =? 92)) s.
Proof.
  induction s as [|c s IH]; intros p; [reflexivity|]. cbn [escape_alt_from]. rewrite filter_app, IH.
  destruct (((c =? 91) || (c =? 93)) && negb p); cbn [filter app]; destruct (c =? 92) eqn:E; try reflexivity; now rewrite E.
Qed.
Lemma image_final src title alt : ~ double_backslash (replace_all [10] [32] alt) ->
  exists text rest, image_text src title alt = [33; 91] ++ rest /\ until_bracket O false rest = Some (text, dest_and_title src (replace_all [10] [32] title)) /\
  filter (fun c => negb (c =? 92)) text = filter (fun c => negb (c =? 92)) (replace_all [10] [32] alt).
Proof.
  intros H. unfold image_text. cbv zeta. unfold cNL, cSP. eexists _, _. split; [reflexivity|].
  change ([93] ++ ?z) with (93 :: z). split; [apply (alt_read _ _ false); easy|apply alt_kept].
Qed.

(** C46 *)
Lemma validate_spec c : validate_config (fill_defaults c) = None ->
  let c' := fill_defaults c in
  In (bullet_marker c') [b "-"; b "+"; b "*"] /\ In (code_fence_opt c') [b "```"; b "~~~"] /\
  In (heading_style c') [b "atx"; b "setext"] /\ In (link_style c') [b "inlined"; b "referenced_index"; b "referenced_short"] /\
  (count_byte 95 (em_delimiter c') = 1 \/ count_byte 42 (em_delimiter c') = 1)%nat /\
  (count_byte 95 (strong_delimiter c') = 2 \/ count_byte 42 (strong_delimiter c') = 2)%nat /\
  (3 <= count_byte 42 (horizontal_rule c') \/ 3 <= count_byte 95 (horizontal_rule c') \/ 3 <= count_byte 45 (horizontal_rule c'))%nat.
Proof.
  cbv zeta. generalize (fill_defaults c). clear c. intros c. unfold validate_config.
  destruct (negb _ && _) eqn:E1; [discriminate|]. destruct (negb (Nat.eqb (count_byte 95 (strong_delimiter c)) 2) && _) eqn:E2; [discriminate|].
  destruct (Nat.ltb (count_byte 42 (horizontal_rule c)) 3 && _ && _) eqn:E3; [discriminate|].
  destruct (one_of [b "-"; b "+"; b "*"] (bullet_marker c)) eqn:E4; [|discriminate].
  destruct (one_of [b "```"; b "~~~"] (code_fence_opt c)) eqn:E5; [|discriminate].
  destruct (one_of [b "atx"; b "setext"] (heading_style c)) eqn:E6; [|discriminate].
  destruct (one_of [b "inlined"; b "referenced_index"; b "referenced_short"] (link_style c)) eqn:E7; [|discriminate].
  intros _. apply one_of_in in E4, E5, E6, E7. split; [easy|]. split; [easy|]. split; [easy|]. split; [easy|].
  split; [|split].
  - destruct (Nat.eqb_spec (count_byte 95 (em_delimiter c)) 1); [now left|]. destruct (Nat.eqb_spec (count_byte 42 (em_delimiter c)) 1); [now right|]. discriminate.
  - destruct (Nat.eqb_spec (count_byte 95 (strong_delimiter c)) 2); [now left|]. destruct (Nat.eqb_spec (count_byte 42 (strong_delimiter c)) 2); [now right|]. discriminate.
  - destruct (Nat.ltb_spec (count_byte 42 (horizontal_rule c)) 3); [|now left]. destruct (Nat.ltb_spec (count_byte 95 (horizontal_rule c)) 3); [|right; now left].
    destruct (Nat.ltb_spec (count_byte 45 (horizontal_rule c)) 3); [discriminate|right; now right].
Qed.

(** C31 *)
Lemma post_newline_ascii p x : Forall (fun c => c < 128) p -> post_newline (p ++ x) = p ++ post_newline x.
Proof.
  induction 1 as [|c p Hc Hp IH]; [reflexivity|]. cbn [app]. unfold post_newline in *. rewrite replace_all_cons.
  assert (E : has_prefix marker_nl (c :: p ++ x) = false).
  { unfold marker_nl. cbn [has_prefix]. replace (239 =? c) with false by lia. reflexivity. }
  rewrite E. now rewrite IH.
Qed.
Lemma split_on_prefix p s : ~ In 10 p -> split_on 10 (p ++ s) = match split_on 10 s with h :: t => (p ++ h) :: t | [] => [] end.
Proof.
  intros H. induction p as [|c p IH]; [cbn [app]; now destruct (split_on 10 s)|]. cbn [app split_on]. rewrite IH by (intros I; apply H; now right).
  replace (c =? 10) with false by (symmetry; apply N.eqb_neq; intros ->; apply H; now left).
  destruct (split_on 10 s) eqn:E; [|reflexivity]. now apply split_on_ne in E.
Qed.
Lemma digits_no_newline s : forall a v, digits_value a s = Some v -> ~ In 10 s.
Proof.
  induction s as [|c s IH]; intros a v H I; [easy|]. cbn [digits_value] in H. destruct ((48 <=? c) && (c <=? 57)) eqn:E; [|discriminate].
  destruct I as [->|I]; [discriminate|]. exact (IH _ _ H I).
Qed.
Lemma list_items_lines un prefix k : forall items i,
  (forall j, (i <= j < i + List.length items)%nat -> Forall (fun c => c < 128) (prefix j) /\ ~ In 10 (prefix j) /\ List.length (prefix j) = k) ->
  items <> [] ->
  split_on 10 (post_newline (list_items un prefix k i items)) =
  items_lines prefix i (map (fun it => split_on 10 (post_newline (un (trim_hard_breaks (trim_consecutive_newlines it))))) items).
Proof.
  induction items as [|it rest IH]; intros i P N; [easy|]. cbn [list_items map items_lines].
  destruct (P i) as (A & NL & L); [cbn; lia|].
  set (c := un (trim_hard_breaks (trim_consecutive_newlines it))).
  assert (E : split_on 10 (post_newline (prefix i ++ indent_item c k)) = item_lines (prefix i) (split_on 10 (post_newline c))).
  { rewrite post_newline_ascii, split_on_prefix, indent_item_lines by easy. unfold item_lines. rewrite L.
    now destruct (split_on 10 (post_newline c)). }
  destruct rest as [|it2 rest].
  - cbn [is_empty list_items app map items_lines]. now rewrite !app_nil_r, E.
  - cbn [is_empty]. unfold cNL. rewrite (app_assoc (prefix i)), post_newline_sep, split_on_app10, E. f_equal. apply IH; [|easy].
    intros j Hj. apply P. cbn in *. lia.
Qed.
Lemma list_lines un is_ul marker start items : Forall (fun c => c < 128) marker -> ~ In 10 marker -> (0 <= start)%Z ->
  let items' := filter (fun x => negb (is_empty x)) (map trim_space items) in
  items' <> [] ->
  exists body, list_text un is_ul marker start items = [10; 10] ++ body ++ [10; 10] /\
  split_on 10 (post_newline body) =
    items_lines (list_prefix is_ul marker start (List.length items')) O
      (map (fun it => split_on 10 (post_newline (un (trim_hard_breaks (trim_consecutive_newlines it))))) items').
Proof.
  intros A NL S items' Ne. unfold list_text. fold items'. cbv zeta. destruct (is_empty items') eqn:Em; [now destruct items'|].
  eexists. split; [reflexivity|]. apply list_items_lines; [|easy].
  intros j Hj. cbn [Nat.add] in Hj. unfold list_prefix. destruct is_ul.
  - assert (A2 : Forall (fun c => c < 128) (marker ++ [cSP])) by (apply Forall_app; split; [easy|constructor; [unfold cSP; lia|constructor]]).
    split; [easy|]. split; [rewrite in_app_iff; cbn; intuition discriminate|]. now rewrite rune_count_ascii.
  - destruct (ordered_prefix_spec start (List.length items') j S ltac:(lia)) as (ds & E & V & L).
    rewrite (ordered_prefix_width start (List.length items') j) by (easy || lia). split; [|split; [|reflexivity]].
    + rewrite E. apply Forall_app. split; [eapply digits_ascii; eauto|]. repeat apply Forall_cons; try apply Forall_nil; lia.
    + rewrite E, in_app_iff. intros [I|I]; [|cbn in I; intuition discriminate]. exact (digits_no_newline _ _ _ V I).
Qed.
