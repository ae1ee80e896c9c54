(** What a conversion makes of single elements (C58). *)
From Coq Require Import List NArith ZArith Bool String Lia ZifyBool ZifyNat ZifyN.
From Verif Require Import Bytes BytesFacts TextUtils Escape EscapeFacts Dom DomUtils RenderText Engine CommonMark Table EngineFacts
  SpecText SpecEscape SpecDom SpecEngine SpecPipeline SpecTable SpecUrl SpecText2 SpecNode TextFacts TextFacts2 TextFacts3 RenderFacts RenderFacts2 RenderFacts3 RenderFacts4 RenderFacts5
  RenderInv PanicFacts PipelineFacts UrlFacts DomFacts2 EscapeFacts6 LetterFacts LetterFacts2.
Import ListNotations.
Open Scope N_scope.
Open Scope list_scope.

Lemma write_all_parts rs s : write_all rs = Done s -> exists parts, Forall2 (fun r p => r = Done p) rs parts /\ s = List.concat parts.
Proof.
  revert s. induction rs as [|r rs IH]; intros s H; cbn [write_all] in H; [injection H as <-; exists []; split; [constructor|reflexivity]|].
  destruct r as [x| |]; cbn [bind] in H; try discriminate. destruct (write_all rs) as [y| |]; cbn [bind] in H; try discriminate. injection H as <-.
  destruct (IH _ eq_refl) as (parts & F & ->). exists (x :: parts). split; [now constructor|reflexivity].
Qed.
Lemma all_done_parts {A} (rs : list (res A)) l : all_done rs = Done l -> Forall2 (fun r p => r = Done p) rs l.
Proof.
  revert l. induction rs as [|r rs IH]; intros l H; cbn [all_done] in H; [injection H as <-; constructor|].
  destruct r as [x| |]; cbn [bind] in H; try discriminate. destruct (all_done rs) as [y| |]; cbn [bind] in H; try discriminate. injection H as <-. constructor; auto.
Qed.
Lemma forall2_map_l {A B C} (f : A -> B) (P : B -> C -> Prop) l m : Forall2 P (map f l) m -> Forall2 (fun x y => P (f x) y) l m.
Proof. revert m. induction l as [|x l IH]; intros m H; inversion H; subst; constructor; auto. Qed.

(** ATX headings: only a number sign at the end matters. *)
Lemma squeeze_hash v : forall k p q, squeeze_spaces k v = p ++ 35 :: q ->
  exists p' q', v = p' ++ 35 :: q' /\ q = squeeze_spaces false q' /\ (p' = [] -> p = []) /\ forall y', p' = y' ++ [7] -> exists y, p = y ++ [7].
Proof.
  induction v as [|c t IH]; intros k p q E; [destruct p; discriminate|]. cbn [squeeze_spaces] in E. destruct (c =? cSP) eqn:Ec.
  - apply N.eqb_eq in Ec. subst c. unfold cSP in *.
    assert (K : forall p0, squeeze_spaces true t = p0 ++ 35 :: q -> p = p0 \/ p = 32 :: p0 ->
      exists p' q', 32 :: t = p' ++ 35 :: q' /\ q = squeeze_spaces false q' /\ (p' = [] -> p = []) /\ forall y', p' = y' ++ [7] -> exists y, p = y ++ [7]).
    { intros p0 E0 Hp. destruct (IH _ _ _ E0) as (p' & q' & -> & -> & N0 & Y). exists (32 :: p'), q'. split; [reflexivity|]. split; [reflexivity|].
      split; [discriminate|]. intros y' Ey. destruct y' as [|d y']; [discriminate Ey|]. injection Ey as _ ->. destruct (Y _ eq_refl) as (y & ->).
      destruct Hp as [->| ->]; [now exists y|now exists (32 :: y)]. }
    destruct k; [now apply (K p); auto|]. destruct p as [|d p0]; [discriminate|]. cbn [app] in E. injection E as <- E. now apply (K p0); auto.
  - destruct p as [|d p0]; cbn [app] in E; injection E as -> E.
    + exists [], t. repeat split; auto. intros y' Ey. destruct y'; discriminate.
    + destruct (IH _ _ _ E) as (p' & q' & -> & -> & N0 & Y). exists (d :: p'), q'. split; [reflexivity|]. split; [reflexivity|]. split; [discriminate|].
      intros y' Ey. destruct y' as [|d' y'].
      * injection Ey as -> ->. rewrite (N0 eq_refl). now exists [].
      * injection Ey as <- ->. destruct (Y _ eq_refl) as (y & ->). now exists (d :: y).
Qed.
Lemma map_one_line_cut v : forall p q, map one_line v = p ++ 35 :: q ->
  exists p' q', v = p' ++ 35 :: q' /\ p = map one_line p' /\ q = map one_line q'.
Proof.
  induction v as [|c t IH]; intros p q E; [destruct p; discriminate|]. cbn [map] in E. destruct p as [|d p]; cbn [app] in E; injection E as E1 E.
  - exists [], t. unfold one_line in E1. destruct ((c =? 10) || (c =? 13)); [discriminate|]. subst. auto.
  - destruct (IH _ _ E) as (p' & q' & -> & -> & ->). exists (c :: p'), q'. subst. auto.
Qed.
Lemma spaces_one_line v : spaces (map one_line v) -> spaces v.
Proof.
  intros H. apply trim_space_nil. apply trim_space_nil in H. rewrite (trim_space_to_space _ one_line_map) in H. now destruct (trim_space v).
Qed.
Lemma atx_ends content z : closing_hash_marked content ->
  trim_space (squeeze_spaces false (map one_line content)) = z ++ [35] -> exists z', z = z' ++ [7].
Proof.
  intros H E. destruct (trim_space_spaces (squeeze_spaces false (map one_line content))) as (l & r & E1 & Sl & Sr).
  rewrite E in E1. replace (l ++ (z ++ [35]) ++ r) with ((l ++ z) ++ 35 :: r) in E1 by (rewrite <- !app_assoc; reflexivity).
  apply squeeze_hash in E1 as (p' & q' & E1 & E2 & N0 & Y). apply map_one_line_cut in E1 as (p & q & Ec & Ep & Eq).
  subst p' q' r. apply spaces_squeeze, spaces_one_line in Sr. destruct (H p q Ec Sr) as (w & ->). rewrite map_app in Y.
  destruct (Y _ eq_refl) as (y & Ey). destruct z as [|d z _] using rev_ind.
  - exfalso. pose proof (trim_space_starts (squeeze_spaces false (map one_line content))) as T. rewrite E in T.
    rewrite app_nil_r in Ey. subst l. clear T. (* the white space before the sign would end in the marker *)
    assert (W : spaces (y ++ [7])) by exact Sl. clear - W. apply trim_space_nil in W.
    destruct (trim_space_ws (y ++ [7])) as (u & v & Eu & Fu & Fv). rewrite W in Eu. cbn [app] in Eu.
    assert (I : In 7 (u ++ v)) by (rewrite <- Eu; apply in_elt). apply in_app_iff in I as [I|I].
    + pose proof (proj1 (Forall_forall _ _) Fu _ I) as K. vm_compute in K. intuition discriminate.
    + pose proof (proj1 (Forall_forall _ _) Fv _ I) as K. vm_compute in K. intuition discriminate.
  - rewrite app_assoc in Ey. apply app_inj_tail in Ey as [_ ->]. now exists z.
Qed.
Lemma atx_line level content : trim_space content <> [] -> forall s, heading_text false level content = Some s ->
  exists line, s = [10; 10] ++ repeat 35 level ++ [32] ++ line ++ [10; 10] /\ line <> [] /\ ~ In 10 line /\ ~ In 13 line
    /\ (closing_hash_marked content -> inked line = inked content).
Proof.
  intros N s H. unfold heading_text in H. destruct (trim_space content) as [|t0 t1] eqn:Et; [easy|]. cbn [is_empty andb] in H.
  rewrite atx_content_eq in H. set (t := trim_space (squeeze_spaces false (map one_line content))) in *.
  assert (Nt : t <> []) by (unfold t; apply atx_nonempty; rewrite Et; discriminate).
  assert (It : forall k, In k t -> k <> 10 /\ k <> 13) by (intros k; apply atx_in).
  assert (Kt : inked t = inked content) by (unfold t; now rewrite inked_trim, inked_squeeze, inked_map).
  destruct (escape_pound t) as [line|] eqn:Ep; [|discriminate]. cbn [option_map] in H. injection H as <-.
  assert (K : line <> [] /\ ~ In 10 line /\ ~ In 13 line /\ (closing_hash_marked content -> inked line = inked content)).
  { assert (Same : line = t -> line <> [] /\ ~ In 10 line /\ ~ In 13 line /\ (closing_hash_marked content -> inked line = inked content)).
    { intros ->. repeat split; auto; intros I; now apply It in I. }
    destruct t as [|k u _] eqn:E0 using rev_ind; [easy|]. unfold escape_pound in Ep. rewrite rev_app_distr in Ep. cbn [rev app escape_pound_rev] in Ep.
    destruct (k =? 35) eqn:Ek; cbn [negb] in Ep.
    - apply N.eqb_eq in Ek. subst k. destruct u as [|d u' _] using rev_ind; [discriminate|]. rewrite rev_app_distr in Ep. cbn [rev app] in Ep.
      destruct u' as [|d2 u2 _] using rev_ind.
      + cbn in Ep. injection Ep as <-. repeat split; try discriminate; try (cbn; intuition discriminate).
        intros H. destruct (atx_ends content _ H E0) as (z' & E'). destruct z' as [|? [|]]; try discriminate. injection E' as ->. now rewrite <- Kt.
      + rewrite rev_app_distr in Ep. cbn [rev app] in Ep. destruct (d2 =? 92) eqn:E2.
        * apply Same. cbn [option_map] in Ep. injection Ep as <-. cbn [rev]. rewrite rev_involutive, <- !app_assoc. reflexivity.
        * cbn [option_map] in Ep. injection Ep as <-. cbn [rev]. rewrite rev_involutive, <- !app_assoc. cbn [app]. split; [destruct u2; discriminate|].
          assert (J : forall k, In k (u2 ++ [d2; 92; 35]) -> k <> 10 /\ k <> 13).
          { intros k I. apply in_app_iff in I as [I|[<-|[<-|[<-|[]]]]]; try (split; discriminate); apply It; rewrite !in_app_iff; cbn; auto. }
          split; [intros I; now apply J in I|]. split; [intros I; now apply J in I|].
          intros H. destruct (atx_ends content _ H E0) as (z' & E'). apply app_inj_tail in E' as [_ ->]. rewrite <- Kt, !inked_app, <- !app_assoc.
          change (d2 :: [92; 35]) with ([d2] ++ [92; 35]). now rewrite inked_app.
    - apply Same. cbn [option_map] in Ep. injection Ep as <-. cbn [rev]. now rewrite rev_involutive. }
  destruct K as (K1 & K2 & K3 & K4). exists line. unfold cNL, cSP. auto.
Qed.

(** The code below an element *)
Definition code_ok (p : place) : bool := negb (not_code p).
Definition skipped_anc (anc : list bytes) : bool := existsb (fun y => existsb (beqb y) code_skipped) anc.
Lemma not_code_eq anc n : not_code (anc, n) = existsb (beqb (node_name n)) code_skipped || skipped_anc anc.
Proof. reflexivity. Qed.
Lemma filter_flat_map {A B} (f : A -> list B) p l : filter p (flat_map f l) = flat_map (fun y => filter p (f y)) l.
Proof. induction l as [|y l IH]; cbn; auto. now rewrite filter_app, IH. Qed.
Lemma flat_map_ext_forall {A B} (f g : A -> list B) l : Forall (fun y => f y = g y) l -> flat_map f l = flat_map g l.
Proof. induction 1 as [|y l E _ IH]; cbn; congruence. Qed.
Lemma flat_map_flat_map {A B C} (f : B -> list C) (g : A -> list B) l : flat_map f (flat_map g l) = flat_map (fun y => flat_map f (g y)) l.
Proof. induction l as [|y l IH]; cbn; auto. now rewrite flat_map_app, IH. Qed.
Lemma places_skipped n : forall anc, skipped_anc (node_name n :: anc) = true -> filter code_ok (places anc n) = [].
Proof.
  induction n as [d|y a ks IH|d|ks IH|d] using node_induction; intros anc H; auto; cbn [places]; cbn [node_name] in H; rewrite filter_flat_map.
  - rewrite (flat_map_ext_forall _ (fun _ => [])); [induction ks; cbn; auto; inversion IH; auto|]. apply Forall_forall. intros k Ik. cbn [filter].
    unfold code_ok at 1. rewrite not_code_eq, H, orb_true_r. cbn [negb].
    pose proof (proj1 (Forall_forall _ _) IH _ Ik) as K. apply K. unfold skipped_anc in *. cbn [existsb] in *. now rewrite H, orb_true_r.
  - rewrite (flat_map_ext_forall _ (fun _ => [])); [induction ks; cbn; auto; inversion IH; auto|]. apply Forall_forall. intros k Ik. cbn [filter].
    unfold code_ok at 1. rewrite not_code_eq, H, orb_true_r. cbn [negb].
    pose proof (proj1 (Forall_forall _ _) IH _ Ik) as K. apply K. unfold skipped_anc in *. cbn [existsb] in *. now rewrite H, orb_true_r.
Qed.
Definition code_below (anc : list bytes) (n : node) : bytes := flat_map code_piece (filter code_ok (places anc n)).
Lemma code_text_places n : forall anc, skipped_anc anc = false ->
  code_text n = flat_map code_piece (filter code_ok ((anc, n) :: places anc n)).
Proof.
  induction n as [d|y a ks IH|d|ks IH|d] using node_induction; intros anc H; cbn [code_text filter]; unfold code_ok at 1; rewrite not_code_eq, H, orb_false_r;
    cbn [node_name]; try (cbn; rewrite ?app_nil_r; reflexivity).
  - change (existsb (beqb y) code_skipped) with (name_in code_skipped y). destruct (name_in code_skipped y) eqn:Ey; cbn [negb].
    + rewrite places_skipped; auto. cbn [node_name]. unfold skipped_anc. cbn [existsb]. change (existsb (beqb y) code_skipped) with (name_in code_skipped y). now rewrite Ey.
    + cbn [flat_map]. cbn [code_piece snd]. change (existsb (beqb y) [b "br"; b "div"]) with (name_in [b "br"; b "div"] y). f_equal.
      cbn [places]. rewrite filter_flat_map, flat_map_flat_map. apply flat_map_ext_forall. eapply Forall_impl; [|exact IH]. intros k K. apply K.
      unfold skipped_anc in *. cbn [existsb]. change (existsb (beqb y) code_skipped) with (name_in code_skipped y). now rewrite Ey, H.
  - change (existsb (beqb (b "#document")) code_skipped) with false. cbn [negb flat_map code_piece snd app]. cbn [places].
    rewrite filter_flat_map, flat_map_flat_map. apply flat_map_ext_forall. eapply Forall_impl; [|exact IH]. intros k K. apply K.
    unfold skipped_anc in *. cbn [existsb]. now rewrite H.
Qed.
Lemma code_text_of name a ks : name_in code_skipped name = false -> name_in [b "br"; b "div"] name = false ->
  code_text (Elem name a ks) = code_of (Elem name a ks).
Proof.
  intros N B. rewrite (code_text_places _ [] eq_refl). unfold code_of. cbn [filter]. unfold code_ok at 1. rewrite not_code_eq. cbn [node_name].
  change (existsb (beqb name) code_skipped) with (name_in code_skipped name). rewrite N. cbn [skipped_anc existsb orb negb flat_map code_piece snd].
  unfold name_in in B. cbn [existsb] in B. rewrite B. reflexivity.
Qed.
(** The languages *)
Lemma attribute_eq n key : attribute n key = node_attr n key [].
Proof. destruct n as [d|y a ks|d|ks|d]; auto. cbn. induction a as [|(k, v) a IH]; cbn; auto. destruct (beqb k key); auto. Qed.
Definition lang_place (p : place) : bool := negb (not_code p) && existsb (beqb (node_name (snd p))) [b "code"; b "pre"].
Definition place_lang (p : place) : bytes := code_language (attribute (snd p) (b "class")).
Lemma lang_skipped n anc : skipped_anc (node_name n :: anc) = true -> filter lang_place (places anc n) = [].
Proof.
  intros H. apply places_skipped in H. induction (places anc n) as [|p l IH]; auto. cbn [filter] in *. unfold code_ok in H at 1. unfold lang_place at 1.
  destruct (negb (not_code p)); [discriminate|]. cbn [andb]. auto.
Qed.
Lemma map_flat_map {A B C} (f : B -> C) (g : A -> list B) l : map f (flat_map g l) = flat_map (fun y => map f (g y)) l.
Proof. induction l as [|y l IH]; cbn; auto. now rewrite map_app, IH. Qed.
Lemma languages_places n : forall anc, skipped_anc anc = false ->
  code_languages n = map place_lang (filter lang_place ((anc, n) :: places anc n)).
Proof.
  induction n as [d|y a ks IH|d|ks IH|d] using node_induction; intros anc H; cbn [code_languages filter]; unfold lang_place at 1; rewrite not_code_eq, H, orb_false_r;
    cbn [node_name snd]; try reflexivity.
  - change (existsb (beqb y) code_skipped) with (name_in code_skipped y). change (existsb (beqb y) [b "code"; b "pre"]) with (name_in [b "code"; b "pre"] y).
    destruct (name_in code_skipped y) eqn:Ey; cbn [negb andb].
    + rewrite lang_skipped by (cbn [node_name]; unfold skipped_anc; cbn [existsb]; change (existsb (beqb y) code_skipped) with (name_in code_skipped y); now rewrite Ey).
      rewrite app_nil_r. destruct (name_in [b "code"; b "pre"] y) eqn:Ec; auto. exfalso. unfold name_in in *. apply existsb_exists in Ec as (z & I & Ez).
      apply beqb_eq in Ez. subst z. cbn [In] in I. decompose [or] I; try contradiction; subst y; discriminate.
    + assert (K : flat_map code_languages ks = map place_lang (filter lang_place (places anc (Elem y a ks)))).
      { cbn [places]. rewrite filter_flat_map, map_flat_map. apply flat_map_ext_forall. eapply Forall_impl; [|exact IH]. intros k K. apply K.
        unfold skipped_anc in *. cbn [existsb]. change (existsb (beqb y) code_skipped) with (name_in code_skipped y). now rewrite Ey, H. }
      rewrite K. destruct (name_in [b "code"; b "pre"] y); cbn [map app]; auto. f_equal. unfold place_lang. cbn [snd]. now rewrite attribute_eq.
  - change (existsb (beqb (b "#document")) code_skipped) with false. cbn [negb andb existsb]. cbn [places].
    change (beqb (b "#document") (b "code") || (beqb (b "#document") (b "pre") || false)) with false. cbv iota.
    rewrite filter_flat_map, map_flat_map. apply flat_map_ext_forall. eapply Forall_impl; [|exact IH]. intros k K. apply K.
    unfold skipped_anc in *. cbn [existsb]. now rewrite H.
Qed.
Lemma language_of_eq class lang : language_of class lang -> code_language class = lang.
Proof.
  intros [(before & w & after & -> & F & N & L & NL)|(ws & -> & F & N & ->)]; [now apply language_found|now apply language_none].
Qed.
Lemma first_named_eq l : first_named l = hd [] (filter (fun y => negb (is_empty y)) l).
Proof. induction l as [|y l IH]; auto. cbn. destruct (is_empty y); auto. Qed.
Lemma info_of n langs : Forall2 language_of (classes_of n) langs -> code_info n = first_named langs.
Proof.
  intros F. unfold code_info. rewrite (languages_places n [] eq_refl), first_named_eq. f_equal. f_equal. unfold classes_of in F.
  change (filter (fun p => negb (not_code p) && existsb (beqb (node_name (snd p))) [b "code"; b "pre"])) with (filter lang_place) in F.
  revert langs F. induction (filter lang_place (([], n) :: places [] n)) as [|p l IH]; intros langs F; inversion F as [|? ? ? ? L R]; subst; cbn; auto.
  f_equal; [now apply language_of_eq|auto].
Qed.

Lemma dropped_eq code : final_newline_dropped code (drop_last_newline code).
Proof. unfold final_newline_dropped. destruct (drop_last_spec code) as [(E & L)|E]; auto. Qed.
Lemma attr_start a : forall z, first_number (Elem (b "ol") a []) z -> start_at (Some (attr_or (b "start") (b "1") a)) = z.
Proof.
  intros z H. unfold start_at. cbn [first_number] in H. induction a as [|(k, v) a IH]; cbn [find attr_or fst] in *; [now subst|].
  destruct (beqb k (b "start")); auto. destruct H as [E|[E ->]]; now rewrite E.
Qed.
Lemma on_one_line_eq s : replace_all [10] [32] s = on_one_line s.
Proof. apply replace_one_map. Qed.
Lemma trimmed_eq v : trimmed v (trim_space v).
Proof.
  destruct (trim_space_spaces v) as (l & r & E & L & R). exists l, r. repeat split; auto.
  destruct (trim_space v) as [|y t] eqn:Et; [now left|]. right. rewrite <- Et. split; [rewrite Et; discriminate|].
  split; [apply trim_space_starts|apply trim_space_ends]; rewrite Et; discriminate.
Qed.
Lemma until_bracket_app s : forall d k y z r, until_bracket d k s = Some (y, z) -> until_bracket d k (s ++ r) = Some (y, z ++ r).
Proof.
  induction s as [|c t IH]; intros d k y z r H; cbn [until_bracket app] in *; [discriminate|].
  assert (K : forall d' k', option_map (fun '(x, y) => (c :: x, y)) (until_bracket d' k' t) = Some (y, z) ->
    option_map (fun '(x, y) => (c :: x, y)) (until_bracket d' k' (t ++ r)) = Some (y, z ++ r)).
  { intros d' k' E. destruct (until_bracket d' k' t) as [(u & v)|] eqn:Eu; [|discriminate]. rewrite (IH _ _ _ _ r Eu). cbn in *. now injection E as <- <-. }
  destruct k; auto. destruct (c =? 93); [destruct d|destruct (c =? 91)]; auto. now injection H as <- <-.
Qed.
Lemma inked_inserts t u : inserts t u -> inked u = inked t.
Proof. induction 1 as [|c t u _ IH|c t u _ IH]; unfold inked in *; cbn [filter]; rewrite ?IH; auto. Qed.
Lemma inked_bell s : inked (filter (fun c => negb (c =? 7)) s) = inked s.
Proof.
  unfold inked. induction s as [|c s IH]; auto. cbn [filter]. destruct (c =? 7) eqn:E; cbn [negb filter].
  - apply N.eqb_eq in E. subst c. exact IH.
  - destruct (SpecText.ink c); congruence.
Qed.
Lemma items_written_filter (w : bytes -> bytes) parts : (forall t, inked (w t) = inked t) ->
  items_written parts (map w (filter (fun y => negb (is_empty y)) (map trim_space parts))).
Proof.
  intros W. induction parts as [|p l IH]; cbn [map filter]; [constructor|]. destruct (trim_space p) as [|y t] eqn:E; cbn [is_empty negb].
  - apply iw_blank; auto. now apply trim_space_nil.
  - cbn [map]. apply iw_item; auto. split; [rewrite <- trim_space_nil, E; discriminate|]. rewrite W, <- E. apply inked_trim.
Qed.

Section setting.
Variable x : setting.
Hypothesis Hsort : sorts (st_sort x).
Notation cv := (converter_with (st_mode x) (st_uses x)).
Notation e := (env_of (st_sort x) cv (st_url x)).
Notation hs := (in_order (st_sort x) (cv_render cv)).
Notation ts := (in_order (st_sort x) (cv_text cv)).
Notation rn := (render e hs ts).

Lemma kids_inside f c anc n s : render_kids (rn f) c anc n = Done s -> exists parts, inside x f c anc n parts /\ s = List.concat parts.
Proof.
  intros H. apply write_all_parts in H as (parts & F & ->). exists parts. split; auto. apply forall2_map_l in F. exact F.
Qed.
(** Renderers that give up without writing *)
Lemma declined cfg rec c anc n s : commonmark_render cfg e rec c anc n = Done (false, s) -> s = [].
Proof.
  unfold commonmark_render. cbv zeta. intros H.
  repeat match type of H with (if ?t then _ else _) = _ => destruct t end;
    unfold render_bold_italic, render_list, render_block_code, render_inline_code, render_blockquote, render_heading, render_image, render_link, render_comment in H.
  all: repeat match type of H with
       | bind ?r _ = _ => destruct r as [y| |] eqn:?; cbn [bind] in H; try discriminate
       | (if ?t then _ else _) = _ => destruct t; try discriminate
       | (let _ := _ in _) = _ => cbv zeta in H
       | match ?t with _ => _ end = _ => destruct t; try discriminate
       end; try discriminate; try congruence.
Qed.
Lemma strike_declines d rec c anc n : name_in strike_names (node_name n) = false -> strike_render d e rec c anc n = Done (false, []).
Proof. intros H. unfold strike_render. now rewrite H. Qed.
Lemma table_declines t rec c anc n : name_in [b "table"; b "tr"] (node_name n) = false -> table_render t e rec c anc n = Done (false, []).
Proof.
  intros H. unfold table_render. unfold name_in in H. cbn [existsb] in H. apply orb_false_iff in H as [H1 H2]. apply orb_false_iff in H2 as [H2 _]. now rewrite H1, H2.
Qed.
Lemma dispatch cfg f c anc n s : options x cfg -> (forall d, n <> Text d) ->
  name_in (strike_names ++ [b "table"; b "tr"]) (node_name n) = false -> rendered x (S f) c anc n s ->
  commonmark_render cfg e (rn f) c anc n = Done (true, s)
  \/ commonmark_render cfg e (rn f) c anc n = Done (false, []) /\ fallback e (rn f) c anc n = Done s.
Proof.
  intros (cfg0 & Ic & Uc & V & ->) Nt Nn H. unfold rendered in H. cbv zeta in H.
  assert (H' : try_renderers e hs (rn f) c anc n = Done s) by (destruct n as [d|y a ks|d|ks|d]; [elim (Nt d); reflexivity|exact H..]). clear H.
  assert (N1 : name_in strike_names (node_name n) = false /\ name_in [b "table"; b "tr"] (node_name n) = false).
  { unfold name_in in *. rewrite existsb_app in Nn. now apply orb_false_iff in Nn. }
  destruct N1 as [N1 N2].
  assert (B : forall h, In h hs -> h = commonmark_render (fill_defaults cfg0) \/ h e (rn f) c anc n = Done (false, [])).
  { intros h I. apply (render_uses (st_sort x) Hsort) in I as (u & Iu & I). destruct u as [|cfg|d|os]; cbn [use_render] in I.
    - destruct I.
    - rewrite (Uc _ Iu) in I. destruct (valid_cfg cfg0); [|destruct I]. destruct I as [<-|[]]. now left.
    - destruct I as [<-|[]]. right. now apply strike_declines.
    - destruct (apply_table_options os table_defaults) as [tc [?|]]; [destruct I|]. destruct I as [<-|[]]. right. now apply table_declines. }
  assert (M : In (commonmark_render (fill_defaults cfg0)) hs).
  { rewrite cw_render. apply (in_order_in (st_sort x) Hsort). exists 500%Z. apply in_flat_map. exists (UseCommonmark cfg0). split; auto. cbn [use_render].
    unfold valid_cfg. rewrite V. now left. }
  set (rec := rn f) in *. clearbody rec. set (l := hs) in *. clearbody l.
  assert (K : forall l, (forall h, In h l -> h = commonmark_render (fill_defaults cfg0) \/ h e rec c anc n = Done (false, [])) ->
     commonmark_render (fill_defaults cfg0) e rec c anc n = Done (false, []) -> try_renderers e l rec c anc n = fallback e rec c anc n).
  { intros l' B' E. induction l' as [|h l' IH]; cbn [try_renderers]; [reflexivity|].
    assert (E' : h e rec c anc n = Done (false, [])) by (destruct (B' h (or_introl eq_refl)) as [->|E']; auto). rewrite E'. cbn [bind fst snd].
    rewrite IH by (intros; apply B'; now right). destruct (fallback _ _ _ _ _); reflexivity. }
  induction l as [|h l IH]; [destruct M|]. cbn [try_renderers] in H'.
  destruct (B h (or_introl eq_refl)) as [->|E].
  - destruct (commonmark_render (fill_defaults cfg0) e rec c anc n) as [(ok & w)| |] eqn:Ec; cbn [bind fst snd] in H'; try discriminate. destruct ok.
    + left. congruence.
    + right. pose proof (declined _ _ _ _ _ _ Ec) as ->. split; auto. rewrite (K l) in H' by (auto; intros; apply B; now right).
      destruct (fallback e rec c anc n); cbn in H'; congruence.
  - destruct M as [->|M].
    + right. split; auto. rewrite E in H'. cbn [bind fst snd] in H'. rewrite (K l) in H' by (auto; intros; apply B; now right).
      destruct (fallback e rec c anc n); cbn in H'; congruence.
    + rewrite E in H'. cbn [bind fst snd] in H'. apply IH; auto; [|intros; apply B; now right].
      destruct (try_renderers e l rec c anc n); cbn in H'; congruence.
Qed.

Lemma dispatch_elem cfg f c anc name a ks s : options x cfg -> name_in (strike_names ++ [b "table"; b "tr"]) name = false ->
  rendered x (S f) c anc (Elem name a ks) s ->
  commonmark_render cfg e (rn f) c anc (Elem name a ks) = Done (true, s)
  \/ commonmark_render cfg e (rn f) c anc (Elem name a ks) = Done (false, []) /\ fallback e (rn f) c anc (Elem name a ks) = Done s.
Proof. intros O N R. apply dispatch; auto. discriminate. Qed.
(** Emphasis *)
Lemma node_emphasis cfg f c anc name a ks s d : options x cfg ->
  In name (map b ["strong"; "b"]%string) /\ d = strong_delimiter cfg \/ In name (map b ["em"; "i"]%string) /\ d = em_delimiter cfg -> ~ In 10 d ->
  rendered x (S f) c anc (Elem name a ks) s ->
  exists parts, inside x f c anc (Elem name a ks) parts /\ Forall2 (delimited d) (split_on 10 (List.concat parts)) (split_on 10 s).
Proof.
  intros O N Nd R.
  assert (K : bind (render_kids (rn f) c anc (Elem name a ks)) (fun y => Done (true, emphasis_text d y)) = Done (true, s)).
  { destruct (dispatch_elem cfg f c anc name a ks s O
      ltac:(destruct N as [[I _]|[I _]]; cbn [map In] in I; decompose [or] I; try contradiction; subst name; reflexivity) R) as [H|[H _]].
    all: destruct N as [[I ->]|[I ->]]; cbn [map In] in I; decompose [or] I; try contradiction; subst name; try exact H.
    all: exfalso; revert H; match goal with |- commonmark_render _ _ _ _ _ (Elem ?nm _ _) = _ -> _ =>
      change (render_bold_italic cfg e (rn f) c anc (Elem nm a ks) = Done (false, []) -> False) end; unfold render_bold_italic;
      destruct (render_kids _ _ _ _); cbn [bind]; discriminate. }
  destruct (render_kids (rn f) c anc (Elem name a ks)) as [y| |] eqn:E; cbn [bind] in K; try discriminate. injection K as <-.
  apply kids_inside in E as (parts & Ip & ->). exists parts. split; auto. now apply delimiter_lines.
Qed.
(** Breaks and rules *)
Lemma node_break cfg f c anc a ks s : options x cfg -> rendered x (S f) c anc (Elem (b "br") a ks) s -> s = [32; 32; 10].
Proof. intros O R. destruct (dispatch_elem cfg f c anc (b "br") a ks s O eq_refl R) as [H|[H _]]; [|discriminate H]. injection H as <-. reflexivity. Qed.
Lemma node_rule cfg f c anc a ks s : options x cfg -> rendered x (S f) c anc (Elem (b "hr") a ks) s ->
  s = [10; 10] ++ horizontal_rule cfg ++ [10; 10].
Proof. intros O R. destruct (dispatch_elem cfg f c anc (b "hr") a ks s O eq_refl R) as [H|[H _]]; [|discriminate H]. injection H as <-. reflexivity. Qed.
(** Block quotes *)
Lemma node_quote cfg f c anc a ks s : options x cfg -> rendered x (S f) c anc (Elem (b "blockquote") a ks) s ->
  exists parts, inside x f c anc (Elem (b "blockquote") a ks) parts /\
  (spaces (List.concat parts) /\ s = []
   \/ ~ spaces (List.concat parts) /\ exists q body, s = [10; 10] ++ q ++ [10; 10]
        /\ split_on 10 q = map (app [62; 32]) (split_on 10 body) /\ inked body = inked (List.concat parts)).
Proof.
  intros O R.
  assert (K : bind (render_kids (rn f) c anc (Elem (b "blockquote") a ks)) (fun y => Done (true, blockquote_text y)) = Done (true, s)).
  { destruct (dispatch_elem cfg f c anc (b "blockquote") a ks s O eq_refl R) as [H|[H _]]; [exact H|].
    exfalso. revert H. change (render_blockquote e (rn f) c anc (Elem (b "blockquote") a ks) = Done (false, []) -> False). unfold render_blockquote.
    destruct (render_kids _ _ _ _); cbn [bind]; discriminate. }
  destruct (render_kids (rn f) c anc _) as [y| |] eqn:E; cbn [bind] in K; try discriminate. injection K as <-.
  apply kids_inside in E as (parts & Ip & ->). exists parts. split; auto. set (y := List.concat parts). clearbody y.
  destruct (trim_space y) as [|z zs] eqn:Et.
  - left. split; [now apply trim_space_nil|]. unfold blockquote_text. now rewrite Et.
  - right. assert (Ny : ~ spaces y) by (rewrite <- trim_space_nil, Et; discriminate). split; auto. now apply blockquote_final.
Qed.

(** Headings *)
Lemma level_names name k : heading_level_of name k -> name_in (strike_names ++ [b "table"; b "tr"]) name = false /\ heading_level name = k
  /\ (forall cfg rec c anc a ks, commonmark_render cfg e rec c anc (Elem name a ks) = render_heading cfg e rec c anc (Elem name a ks)).
Proof. intros I. unfold heading_level_of in I. cbn [In] in I. decompose [or] I; try contradiction; match goal with H : _ = (name, k) |- _ => injection H as <- <- end; repeat split. Qed.
Lemma heading_content cfg f c anc name k a ks s : options x cfg -> heading_level_of name k -> rendered x (S f) c anc (Elem name a ks) s ->
  exists parts, inside x f c anc (Elem name a ks) parts /\ heading_text (beqb (heading_style cfg) (b "setext")) k (List.concat parts) = Some s.
Proof.
  intros O L R. destruct (level_names name k L) as (N & Lk & D).
  assert (K : render_heading cfg e (rn f) c anc (Elem name a ks) = Done (true, s)).
  { destruct (dispatch_elem cfg f c anc name a ks s O N R) as [H|[H _]]; rewrite D in H; [exact H|]. exfalso. revert H. unfold render_heading.
    destruct (render_kids _ _ _ _); cbn [bind]; try discriminate. destruct (heading_text _ _ _); discriminate. }
  unfold render_heading in K. destruct (render_kids (rn f) c anc _) as [y| |] eqn:E; cbn [bind] in K; try discriminate.
  apply kids_inside in E as (parts & Ip & ->). exists parts. split; auto. cbn [node_name] in K. rewrite Lk in K.
  destruct (heading_text _ _ _); [|discriminate]. now injection K as <-.
Qed.
Lemma node_heading cfg f c anc name k a ks s : options x cfg -> heading_level_of name k ->
  heading_style cfg = b "atx" \/ (3 <= k)%nat -> rendered x (S f) c anc (Elem name a ks) s ->
  exists parts, inside x f c anc (Elem name a ks) parts /\
  (spaces (List.concat parts) /\ s = []
   \/ ~ spaces (List.concat parts) /\ exists line, s = [10; 10] ++ repeat 35 k ++ [32] ++ line ++ [10; 10]
        /\ line <> [] /\ ~ In 10 line /\ ~ In 13 line /\ (closing_hash_marked (List.concat parts) -> inked line = inked (List.concat parts))).
Proof.
  intros O L St R. destruct (heading_content _ _ _ _ _ _ _ _ _ O L R) as (parts & Ip & E). exists parts. split; auto.
  set (y := List.concat parts) in *. clearbody y.
  assert (E' : heading_text false k y = Some s).
  { rewrite <- E. unfold heading_text. destruct (is_empty (trim_space y)); auto. destruct St as [->|G]; [reflexivity|].
    replace (Nat.ltb k 3) with false by (symmetry; apply Nat.ltb_ge; lia). rewrite !andb_false_r; reflexivity. }
  destruct (trim_space y) as [|z zs] eqn:Et.
  - left. split; [now apply trim_space_nil|]. unfold heading_text in E'. rewrite Et in E'. now injection E' as <-.
  - right. assert (Ny : trim_space y <> []) by (rewrite Et; discriminate). split; [now rewrite <- trim_space_nil|]. now apply atx_line.
Qed.
Lemma node_setext cfg f c anc name k a ks s : options x cfg -> heading_level_of name k ->
  heading_style cfg = b "setext" -> (k < 3)%nat -> rendered x (S f) c anc (Elem name a ks) s ->
  exists parts, inside x f c anc (Elem name a ks) parts /\
  (spaces (List.concat parts) /\ s = []
   \/ ~ spaces (List.concat parts) /\ (~ spaces (last (split_on 10 (List.concat parts)) []) ->
      exists body w, s = [10; 10] ++ body ++ [10] ++ repeat (if Nat.eqb k 1 then 61 else 45) w ++ [10; 10] /\ (3 <= w)%nat
        /\ (forall l, In l (split_on 10 body) -> ~ spaces l) /\ inked body = inked (List.concat parts))).
Proof.
  intros O L St Lt R. destruct (heading_content _ _ _ _ _ _ _ _ _ O L R) as (parts & Ip & E). exists parts. split; auto.
  set (y := List.concat parts) in *. clearbody y. rewrite St in E. change (beqb (b "setext") (b "setext")) with true in E.
  destruct (trim_space y) as [|z zs] eqn:Et.
  - left. split; [now apply trim_space_nil|]. unfold heading_text in E. rewrite Et in E. now injection E as <-.
  - right. split; [rewrite <- trim_space_nil, Et; discriminate|]. intros Nl.
    assert (Hk : (k = 1 \/ k = 2)%nat).
    { unfold heading_level_of in L. cbn [In] in L. decompose [or] L; try contradiction; match goal with H : _ = (name, k) |- _ => injection H as <- <- end; lia. }
    destruct (setext_final k y Hk) as (body & w & E' & W & B & I).
    { intros El. apply Nl. rewrite <- trim_space_nil. unfold trim_space. now rewrite El. }
    rewrite E in E'. injection E' as ->. exists body, w. repeat split; auto. intros l Il. now apply B.
Qed.

(** Code *)
Lemma node_pre cfg f c anc a ks s : options x cfg -> rendered x (S f) c anc (Elem (b "pre") a ks) s ->
  let n := Elem (b "pre") a ks in
  forall langs, Forall2 language_of (classes_of n) langs -> let info := first_named langs in
  (forall y, In y info -> y <> 10 /\ y <> 96 /\ y <> 126) -> ~ infix marker_nl info -> ~ infix marker_nl (code_of n) ->
  forall rest, exists B code, post_newline (s ++ rest) = [10; 10] ++ B /\ final_newline_dropped (code_of n) code
    /\ read_fenced (hd 0 (code_fence_opt cfg)) (split_on 10 B) = Some (info, split_on 10 code, split_on 10 ([10] ++ post_newline rest)).
Proof.
  intros O R n langs FL info Hi Mi Mc rest.
  destruct (dispatch_elem cfg f c anc (b "pre") a ks s O eq_refl R) as [H|[H _]]; [|discriminate H].
  assert (Es : s = block_code_text (code_fence_opt cfg) info (code_of n)).
  { unfold info. rewrite <- (info_of n langs FL). rewrite <- (code_text_of (b "pre") a ks eq_refl eq_refl : code_text n = code_of n).
    assert (H' : Done (true, block_code_text (code_fence_opt cfg) (code_info n) (code_text n)) = Done (true, s)) by exact H.
    remember (block_code_text (code_fence_opt cfg) (code_info n) (code_text n)) as w. congruence. }
  subst s. clear H R.
  destruct O as (cfg0 & _ & _ & V & ->). destruct (validate_spec cfg0 V) as (_ & F & _).
  destruct (block_final (code_fence_opt (fill_defaults cfg0)) info (code_of n) rest) as (B & E1 & E2); auto.
  - cbn [In] in F. decompose [or] F; auto; contradiction.
  - intros I. now apply Hi in I.
  - intros I. now apply Hi in I.
  - intros I. now apply Hi in I.
  - exists B, (drop_last_newline (code_of n)). split; auto. split; auto. apply dropped_eq.
Qed.
Lemma node_code cfg f c anc name a ks s : options x cfg -> In name (map b ["code"; "var"; "samp"; "kbd"; "tt"]%string) ->
  rendered x (S f) c anc (Elem name a ks) s -> let code := code_of (Elem name a ks) in
  spaces code /\ s = [96] ++ code ++ [96]
  \/ ~ spaces code /\ exists t o, trimmed code t /\ run_collapsed code_blank t o
     /\ forall rest, first_is 96 rest = false ->
        exists inner, read_code_span (s ++ rest) = Some (inner, rest) /\ (first_is 96 o = last_is 96 o -> inner = o).
Proof.
  intros O I R code.
  assert (K : s = inline_code_text code).
  { unfold code. rewrite <- code_text_of by (cbn [map In] in I; decompose [or] I; try contradiction; subst name; reflexivity).
    destruct (dispatch_elem cfg f c anc name a ks s O ltac:(cbn [map In] in I; decompose [or] I; try contradiction; subst name; reflexivity) R) as [H|[H _]].
    all: cbn [map In] in I; decompose [or] I; try contradiction; subst name; try discriminate H.
    all: match goal with |- _ = inline_code_text (code_text ?n) => change (Done (true, inline_code_text (code_text n)) = Done (true, s)) in H end; now injection H as <-. }
  clearbody code. destruct (trim_space code) as [|y t] eqn:Et.
  - left. split; [now apply trim_space_nil|]. rewrite K. unfold inline_code_text. now rewrite Et.
  - right. assert (N : trim_space code <> []) by (rewrite Et; discriminate). assert (Ns : ~ spaces code) by now rewrite <- trim_space_nil.
    split; auto. destruct (inline_collapse_spec code N) as (l & t0 & r & E & L & Rr & Hg & Co).
    exists t0, (collapse_inline_code code). split; [exists l, r; auto|]. split; auto. intros rest Fr. subst s.
    destruct (inline_span code rest Ns Fr) as (inner & Ei). exists inner. split; auto. intros Eq.
    pose proof (proj2 (inline_round_trip code rest Ns Fr) Eq) as Er. rewrite Er in Ei. now injection Ei.
Qed.
(** Lists *)
Lemma list_content cfg f c anc name a ks s : options x cfg -> name = b "ul" \/ name = b "ol" -> rendered x (S f) c anc (Elem name a ks) s ->
  exists parts, inside x f c anc (Elem name a ks) parts /\
    s = list_text (unescape_fn e) (beqb name (b "ul")) (bullet_marker cfg) (start_at (Some (attr_or (b "start") (b "1") a))) parts.
Proof.
  intros O I R.
  assert (K : render_list cfg e (rn f) c anc (Elem name a ks) = Done (true, s)).
  { destruct (dispatch_elem cfg f c anc name a ks s O ltac:(destruct I; subst name; reflexivity) R) as [H|[H _]].
    all: destruct I; subst name; try exact H; exfalso; revert H.
    all: match goal with |- commonmark_render _ _ _ _ _ ?n = _ -> _ => change (render_list cfg e (rn f) c anc n = Done (false, []) -> False) end; unfold render_list.
    all: destruct (all_done _); cbn [bind]; discriminate. }
  unfold render_list in K. destruct (all_done _) as [parts| |] eqn:E; cbn [bind] in K; try discriminate. apply all_done_parts, forall2_map_l in E.
  exists parts. split; [exact E|]. now injection K as <-.
Qed.
Lemma inked_un s : inked (unescape_fn e s) = inked s.
Proof.
  unfold env_of. cbn [unescape_fn]. rewrite cw_mode. destruct (st_mode x); cbn [unescape_with]; auto.
  rewrite (inked_inserts _ _ (content_inserts _ s (detectors_wb _ Hsort _ _))). apply inked_bell.
Qed.
Lemma node_list cfg f c anc name a ks s : options x cfg -> name = b "ul" \/ name = b "ol" ->
  (forall z, name = b "ol" -> first_number (Elem name a ks) z -> (0 <= z)%Z) -> rendered x (S f) c anc (Elem name a ks) s ->
  exists parts, inside x f c anc (Elem name a ks) parts /\
  (Forall spaces parts /\ s = []
   \/ exists body outs prefix, s = [10; 10] ++ body ++ [10; 10] /\ items_written parts outs /\ outs <> []
      /\ split_on 10 (post_newline body) = items_lines prefix O (map (split_on 10) outs)
      /\ forall i, (i < List.length outs)%nat ->
           name = b "ul" /\ prefix i = bullet_marker cfg ++ [32]
           \/ name = b "ol" /\ exists z ds, first_number (Elem name a ks) z /\ prefix i = ds ++ [46; 32]
                /\ digits_value 0 ds = Some (Z.to_N (z + Z.of_nat i))
                /\ forall j ds', (j < List.length outs)%nat -> prefix j = ds' ++ [46; 32] -> List.length ds' = List.length ds).
Proof.
  intros O I Z R. destruct (list_content _ _ _ _ _ _ _ _ O I R) as (parts & Ip & ->). exists parts. split; auto.
  set (items := filter (fun y => negb (is_empty y)) (map trim_space parts)).
  destruct items as [|i0 is] eqn:Ei.
  - left. split.
    + apply Forall_forall. intros p Ip'. apply trim_space_nil. destruct (trim_space p) as [|y t] eqn:Et; auto. exfalso.
      assert (K : In (y :: t) items) by (apply filter_In; split; [rewrite <- Et; now apply in_map|reflexivity]). rewrite Ei in K. destruct K.
    + unfold list_text. fold items. now rewrite Ei.
  - right. set (z := if beqb name (b "ul") then 0%Z else start_at (Some (attr_or (b "start") (b "1") a))).
    assert (Fz : name = b "ol" -> first_number (Elem name a ks) z).
    { intros ->. unfold z. change (beqb (b "ol") (b "ul")) with false. cbv iota. cbn [first_number]. unfold start_at. clear.
      induction a as [|(k, v) a IH]; cbn [find attr_or fst]; [reflexivity|]. destruct (beqb k (b "start")); auto. destruct (atoi v); auto. }
    assert (Pz : (0 <= z)%Z).
    { destruct I as [->| ->]; [unfold z; change (beqb (b "ul") (b "ul")) with true; lia|]. apply Z; auto. }
    assert (Lz : list_text (unescape_fn e) (beqb name (b "ul")) (bullet_marker cfg) (start_at (Some (attr_or (b "start") (b "1") a))) parts
                 = list_text (unescape_fn e) (beqb name (b "ul")) (bullet_marker cfg) z parts).
    { unfold z. destruct (beqb name (b "ul")); reflexivity. }
    rewrite Lz. clear Lz.
    destruct O as (cfg0 & _ & _ & V & ->). destruct (validate_spec cfg0 V) as (Bm & _).
    assert (Bk : Forall (fun y => y < 128) (bullet_marker (fill_defaults cfg0)) /\ ~ In 10 (bullet_marker (fill_defaults cfg0))).
    { cbn [In] in Bm. decompose [or] Bm; try contradiction; match goal with H : _ = bullet_marker _ |- _ => rewrite <- H end; split;
        try (repeat constructor); cbn; intuition discriminate. }
    destruct Bk as [B1 B2].
    destruct (list_lines (unescape_fn e) (beqb name (b "ul")) (bullet_marker (fill_defaults cfg0)) z parts B1 B2 Pz) as (body & E1 & E2).
    { fold items. rewrite Ei. discriminate. }
    fold items in E2. exists body, (map (fun it => post_newline (unescape_fn e (trim_hard_breaks (trim_consecutive_newlines it)))) items).
    exists (list_prefix (beqb name (b "ul")) (bullet_marker (fill_defaults cfg0)) z (List.length items)).
    split; [exact E1|]. split; [|split; [|split]].
    + apply (items_written_filter (fun it => post_newline (unescape_fn e (trim_hard_breaks (trim_consecutive_newlines it))))). intros t.
      unfold post_newline. rewrite inked_replace by (try discriminate; reflexivity). now rewrite inked_un, inked_hard, inked_tcn.
    + rewrite Ei. discriminate.
    + rewrite E2, map_map. reflexivity.
    + rewrite map_length. intros i Hi. destruct I as [->| ->]; [left; split; reflexivity|]. right. split; [reflexivity|].
      change (beqb (b "ol") (b "ul")) with false. unfold list_prefix.
      destruct (ordered_prefix_spec z (List.length items) i Pz Hi) as (ds & Ep & Ev & El). exists z, ds. repeat split; auto.
      intros j ds' Hj Ej. destruct (ordered_prefix_spec z (List.length items) j Pz Hj) as (d2 & Ep2 & _ & El2). rewrite Ep2 in Ej.
      apply app_inv_tail in Ej. subst d2. congruence.
Qed.

(** Images *)
Lemma fallback_content f c anc n s : fallback e (rn f) c anc n = Done s ->
  exists parts, inside x f c anc n parts /\
    s = (if is_block_type (tag_type_of e (node_name n)) then [10; 10] else []) ++ List.concat parts
        ++ (if is_block_type (tag_type_of e (node_name n)) then [10; 10] else []).
Proof.
  unfold fallback. cbv zeta. intros H. destruct (render_kids _ _ _ _) as [y| |] eqn:E; cbn [bind] in H; try discriminate.
  apply kids_inside in E as (parts & Ip & ->). exists parts. split; auto. now injection H as <-.
Qed.
Lemma inline_fallback f c anc n s : In UseBase (st_uses x) -> is_block_name (node_name n) = false -> fallback e (rn f) c anc n = Done s ->
  exists parts, inside x f c anc n parts /\ s = List.concat parts.
Proof.
  intros Ib N H. apply fallback_content in H as (parts & Ip & E). exists parts. split; auto.
  rewrite (tags_hidden (st_sort x) Hsort) in E by exact Ib. rewrite N in E. destruct (name_in hidden_names (node_name n)); cbn in E; now rewrite app_nil_r in E.
Qed.
Lemma node_image cfg f c anc a ks s : options x cfg -> In UseBase (st_uses x) -> rendered x (S f) c anc (Elem (b "img") a ks) s ->
  let n := Elem (b "img") a ks in let alt := on_one_line (attribute n (b "alt")) in let title := on_one_line (attribute n (b "title")) in
  exists raw, trimmed (attribute n (b "src")) raw /\
  (raw = [] /\ (exists parts, inside x f c anc n parts /\ s = List.concat parts)
   \/ raw <> [] /\ let dest := st_url x (b "img") raw in
      (plain_destination dest -> ~ double_backslash alt -> ~ stray_backslash title ->
       exists r, s = [33; 91] ++ r /\ forall rest, exists text tail o,
         until_bracket O false (r ++ rest) = Some (text, tail) /\ filter (fun y => negb (y =? 92)) text = filter (fun y => negb (y =? 92)) alt
         /\ read_tail tail = Some (dest, o, rest) /\ title_is title o)).
Proof.
  intros O Ib R n alt title. set (raw := trim_space (attribute n (b "src"))). exists raw. split; [apply trimmed_eq|].
  assert (E0 : commonmark_render cfg e (rn f) c anc n = render_image e (rn f) c anc n) by reflexivity.
  destruct (dispatch_elem cfg f c anc (b "img") a ks s O eq_refl R) as [H|[H Hf]]; fold n in H; rewrite E0 in H; unfold render_image in H;
    rewrite <- !attribute_eq in H; fold raw in H; cbv zeta in H.
  - right. destruct raw as [|y t] eqn:Er; cbn [is_empty] in H; [discriminate|]. split; [discriminate|]. intros dest (Nd & Pd & Bd) Da St.
    assert (Es : s = image_text dest (attribute n (b "title")) (attribute n (b "alt"))).
    { unfold dest. remember (image_text (st_url x (b "img") (y :: t)) (attribute n (b "title")) (attribute n (b "alt"))) as w.
      assert (H' : Done (true, w) = Done (true, s)) by (rewrite <- H, Heqw; reflexivity). congruence. }
    destruct (image_final dest (attribute n (b "title")) (attribute n (b "alt"))) as (text & r & E1 & E2 & E3).
    { now rewrite on_one_line_eq. }
    exists r. split; [now rewrite Es|]. intros rest. destruct (tail_read dest title rest) as (o & Eo & To); auto; [split; auto|].
    exists text, (dest_and_title dest title ++ rest), o. split; [|split; [|split]]; auto.
    + rewrite on_one_line_eq in E2. now apply until_bracket_app.
    + now rewrite on_one_line_eq in E3.
  - left. destruct raw as [|y t] eqn:Er; cbn [is_empty] in H; [|discriminate]. split; auto. apply inline_fallback in Hf; auto.
Qed.
(** Links *)
Lemma node_link cfg f c anc a ks s : options x cfg -> link_style cfg = b "inlined" -> rendered x (S f) c anc (Elem (b "a") a ks) s ->
  let n := Elem (b "a") a ks in let title := on_one_line (attribute n (b "title")) in
  exists raw, trimmed (attribute n (b "href")) raw /\ let dest := st_url x (b "a") raw in
  (dest = [] -> link_empty_href cfg <> b "skip") ->
  exists parts, inside x f ((inside_link_key, true) :: c) anc n parts /\
  (~ spaces (List.concat parts) ->
   exists l body r tail, s = l ++ [91] ++ body ++ [93] ++ tail ++ r /\ spaces l /\ spaces r
     /\ (forall y, In y (split_on 10 body) -> ~ spaces y) /\ inked body = inked (List.concat parts)
     /\ (dest = [] -> tail = [40; 41])
     /\ (plain_destination dest -> ~ stray_backslash title ->
         forall rest, exists o, read_tail (tail ++ rest) = Some (dest, o, rest) /\ title_is title o)).
Proof.
  intros O Li R n title. set (raw := trim_space (attribute n (b "href"))). exists raw. split; [apply trimmed_eq|]. intros dest Sk.
  assert (E0 : commonmark_render cfg e (rn f) c anc n = render_link cfg e (rn f) c anc n) by reflexivity.
  assert (Sk' : is_empty dest && beqb (link_empty_href cfg) (b "skip") = false).
  { destruct dest as [|y t]; auto. cbn [is_empty andb]. destruct (beqb (link_empty_href cfg) (b "skip")) eqn:E; auto. apply beqb_eq in E. now elim (Sk eq_refl). }
  assert (K : forall st, render_link cfg e (rn f) c anc n = Done st -> exists parts, inside x f ((inside_link_key, true) :: c) anc n parts /\
     st = match link_text cfg dest (attribute n (b "title")) (List.concat parts) with Some t => (true, t) | None => (false, []) end).
  { intros st Hs. unfold render_link in Hs. cbv zeta in Hs. rewrite <- !attribute_eq in Hs. fold raw in Hs.
    change (assemble_url e (b "a") raw) with dest in Hs. rewrite Sk' in Hs.
    destruct (render_kids (rn f) ((inside_link_key, true) :: c) anc n) as [y| |] eqn:E; cbn [bind] in Hs; try discriminate.
    apply kids_inside in E as (parts & Ip & ->). exists parts. split; auto.
    destruct (link_text cfg dest (attribute n (b "title")) (List.concat parts)); now injection Hs as <-. }
  destruct (dispatch_elem cfg f c anc (b "a") a ks s O eq_refl R) as [H|[H Hf]]; fold n in H; rewrite E0 in H; apply K in H as (parts & Ip & E);
    exists parts; split; auto; intros Nc.
  - destruct (link_text cfg dest (attribute n (b "title")) (List.concat parts)) as [t|] eqn:El; [|discriminate]. injection E as ->.
    destruct (link_final cfg dest (attribute n (b "title")) (List.concat parts) t El Nc) as (l & body & r & E1 & L & Rr & Bb & Bi).
    exists l, body, r, (dest_and_title dest (if is_empty dest then [] else title)). split.
    { rewrite E1. rewrite on_one_line_eq. reflexivity. }
    repeat split; auto.
    + intros ->. reflexivity.
    + intros (Nd & Pd & Bd) St rest. destruct dest as [|d0 d1] eqn:Ed; [easy|]. cbn [is_empty]. destruct (tail_read (d0 :: d1) title rest) as (o & Eo & To); auto.
      { split; auto. } exists o. split; auto.
  - exfalso. destruct (link_text cfg dest (attribute n (b "title")) (List.concat parts)) as [t|] eqn:El; [discriminate|].
    unfold link_text in El. rewrite Sk' in El. cbv zeta in El. destruct (trim_space (List.concat parts)) as [|y t] eqn:Et.
    { now apply trim_space_nil in Et. }
    cbn [is_empty andb] in El. destruct (surrounding_spaces (List.concat parts)) as [[? ?] ?]. rewrite Li in El. discriminate.
Qed.
(** All other elements *)
Lemma not_rendered name : name_in rendered_names name = false -> name_in (strike_names ++ [b "table"; b "tr"]) name = false
  /\ forall cfg rec c anc a ks, commonmark_render cfg e rec c anc (Elem name a ks) = Done (false, []).
Proof.
  intros H. assert (K : forall l, incl l rendered_names -> name_in l name = false).
  { intros l I. unfold name_in in *. destruct (existsb (beqb name) l) eqn:E; auto. apply existsb_exists in E as (y & Iy & Ey). apply I in Iy.
    assert (existsb (beqb name) rendered_names = true) by (apply existsb_exists; eauto). congruence. }
  assert (K1 : forall y, In y rendered_names -> beqb name y = false).
  { intros y I. specialize (K [y]). unfold name_in in K. cbn in K. rewrite orb_false_r in K. apply K. intros z [<-|[]]. exact I. }
  split.
  - apply K. intros y I. cbn in I. unfold rendered_names. cbn [map In]. decompose [or] I; subst; try contradiction; tauto.
  - intros. unfold commonmark_render. cbv zeta. cbn [node_name].
    rewrite (K (bold_names ++ italic_names)) by (intros y I; cbn in I; unfold rendered_names; cbn [map In]; decompose [or] I; subst; try contradiction; tauto).
    rewrite (K inline_code_names) by (intros y I; cbn in I; unfold rendered_names; cbn [map In]; decompose [or] I; subst; try contradiction; tauto).
    rewrite (K heading_names) by (intros y I; cbn in I; unfold rendered_names; cbn [map In]; decompose [or] I; subst; try contradiction; tauto).
    assert (Kl : is_list_name name = false).
    { unfold is_list_name. rewrite !K1 by (unfold rendered_names; cbn [map In]; tauto). reflexivity. }
    rewrite Kl. rewrite !K1 by (unfold rendered_names; cbn [map In]; tauto). reflexivity.
Qed.
Lemma node_other cfg f c anc name a ks s : options x cfg -> In UseBase (st_uses x) -> ~ In name rendered_names -> ~ In name hidden_names ->
  rendered x (S f) c anc (Elem name a ks) s ->
  exists parts, inside x f c anc (Elem name a ks) parts /\
    s = if is_block_name name then [10; 10] ++ List.concat parts ++ [10; 10] else List.concat parts.
Proof.
  intros O Ib N1 N2 R.
  assert (A : forall l, ~ In name l -> name_in l name = false).
  { intros l N. unfold name_in. destruct (existsb (beqb name) l) eqn:E; auto. apply existsb_exists in E as (y & Iy & Ey). apply beqb_eq in Ey. now subst. }
  destruct (not_rendered name (A _ N1)) as (D1 & D2).
  destruct (dispatch_elem cfg f c anc name a ks s O D1 R) as [H|[_ H]]; [rewrite D2 in H; discriminate|].
  apply fallback_content in H as (parts & Ip & E). exists parts. split; auto. rewrite (tags_hidden (st_sort x) Hsort) in E by exact Ib.
  cbn [node_name] in E. rewrite (A _ N2) in E. destruct (is_block_name name); cbn in E; auto. now rewrite app_nil_r in E.
Qed.
(** The document, comments and other nodes *)
Lemma node_document cfg f c anc ks s : options x cfg -> In UseBase (st_uses x) -> rendered x (S f) c anc (Doc ks) s ->
  exists parts, inside x f c anc (Doc ks) parts /\ s = List.concat parts.
Proof.
  intros O Ib R. destruct (dispatch cfg f c anc (Doc ks) s O ltac:(discriminate) eq_refl R) as [H|[_ H]]; [discriminate H|]. now apply inline_fallback in H.
Qed.
Lemma node_comment cfg f c anc d s : options x cfg -> In UseBase (st_uses x) -> rendered x (S f) c anc (Comment d) s ->
  s = if beqb d (b "THE END") then [10; 10] ++ b "<!--THE END-->" ++ [10; 10] else [].
Proof.
  intros O Ib R. destruct (dispatch cfg f c anc (Comment d) s O ltac:(discriminate) eq_refl R) as [H|[H Hf]];
    change (render_comment e (rn f) c anc (Comment d)) with (commonmark_render cfg e (rn f) c anc (Comment d)) in H.
  all: assert (H' : render_comment e (rn f) c anc (Comment d) = commonmark_render cfg e (rn f) c anc (Comment d)) by reflexivity; rewrite H in H'.
  all: cbn [render_comment] in H'; change end_comment_data with (b "THE END") in H'; destruct (beqb d (b "THE END")) eqn:E; try discriminate H'.
  - apply beqb_eq in E. subst d. now injection H' as <-.
  - apply inline_fallback in Hf as (parts & Ip & ->); auto. inversion Ip. reflexivity.
Qed.
End setting.
