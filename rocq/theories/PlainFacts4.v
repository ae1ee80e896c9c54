(** Documents without markup: the reader gets the text back (C60). *)
From Coq Require Import List NArith ZArith Bool String Lia ZifyBool ZifyNat ZifyN Permutation Sorted.
From Verif Require Import Bytes BytesFacts TextUtils TextFacts2 RenderFacts RenderText Escape SpecEscape EscapeFacts EscapeFacts4 EscapeFacts5 EscapeFacts6
  Dom DomUtils Collapse SpecDom SpecText SpecPlain Engine CommonMark Table SpecEngine
  EngineFacts RenderInv SpecPipeline PipelineFacts DomFacts DomFacts2 DomFacts3 PlainFacts PlainFacts2 PlainFacts3.
Import ListNotations.
Open Scope N_scope.
Open Scope list_scope.

Section images.
Variable l : list N.
Hypothesis Hl : forall c, In c l -> c < 128 /\ c <> 0 /\ c <> 7 /\ ~ ws_byte c.
Hypothesis Hp : forall c, In c l -> ascii_punct c = true /\ c <> 38 /\ c <> 59.
Notation esc := (is_escaped_in l).
(** a marked text and what it stands for *)
Inductive img : bytes -> bytes -> Prop :=
| img_nil : img [] []
| img_plain c s v : c <> 0 -> c <> 7 -> c <> 38 -> esc c = false -> img s v -> img (c :: s) (c :: v)
| img_esc c s v : esc c = true -> img s v -> img (7 :: c :: s) (c :: v)
| img_lt s v : img s v -> img (38 :: 108 :: 116 :: 59 :: s) (60 :: v)
| img_gt s v : img s v -> img (38 :: 103 :: 116 :: 59 :: s) (62 :: v).
Lemma img_app x u : img x u -> forall y v, img y v -> img (x ++ y) (u ++ v).
Proof. induction 1; cbn [app]; intros; auto; [apply img_plain|apply img_esc|apply img_lt|apply img_gt]; auto. Qed.
Lemma esc_letters : esc 38 = false /\ esc 59 = false /\ esc 108 = false /\ esc 116 = false /\ esc 103 = false.
Proof.
  repeat split; match goal with |- esc ?c = false => destruct (esc c) eqn:E; auto; apply esc_in in E; apply Hp in E as (A & B & C) end;
    try congruence; vm_compute in A; discriminate.
Qed.
Lemma img_text d : ~ In 7 d -> ~ In 38 d -> img (escape_content esc (entity_replace d)) (plain d).
Proof.
  destruct esc_letters as (E1 & E2 & E3 & E4 & E5).
  induction d as [|c d IH]; intros N7 N38; [constructor|]. assert (I : img (escape_content esc (entity_replace d)) (plain d)).
  { apply IH; intros J; [apply N7|apply N38]; now right. }
  assert (P : c <> 7 /\ c <> 38) by (split; intros ->; [apply N7|apply N38]; now left). destruct P as [P1 P2].
  cbn [entity_replace]. unfold plain. cbn [flat_map]. fold (plain d).
  destruct (c =? 60) eqn:A; [|destruct (c =? 62) eqn:B].
  - assert (c = 60) by lia. subst c.
    change (escape_content esc (b "&lt;" ++ entity_replace d)) with (escape_content esc (38 :: 108 :: 116 :: 59 :: entity_replace d)).
    rewrite !(escape_cons l Hl), E1, E2, E3, E4. cbn. now apply img_lt.
  - assert (c = 62) by lia. subst c.
    change (escape_content esc (b "&gt;" ++ entity_replace d)) with (escape_content esc (38 :: 103 :: 116 :: 59 :: entity_replace d)).
    rewrite !(escape_cons l Hl), E1, E2, E5, E4. cbn. now apply img_gt.
  - cbn [app]. rewrite (escape_cons l Hl). replace (c =? 7) with false by lia. destruct (c =? 0) eqn:Z.
    + cbn [app]. repeat (apply img_plain; [lia|lia|lia|apply (esc_no l Hl); lia|]). exact I.
    + destruct (esc c) eqn:E; cbn [app]; [now apply img_esc|apply img_plain; auto; lia].
Qed.
Lemma img_thin s v : img s v -> forall o, thin s o -> exists v', img o v' /\ thin v v'.
Proof.
  induction 1 as [|c s v Z Bl Am E M IH|c s v E M IH|s v M IH|s v M IH]; intros o T.
  - inversion T; subst. exists []. split; constructor.
  - inversion T as [|? ? o1 T1|? ? ? D T1]; subst.
    + destruct (IH o1 T1) as (v' & I & Tv). exists (c :: v'). split; [now apply img_plain|now constructor].
    + destruct (IH o T1) as (v' & I & Tv). exists v'. split; auto. now constructor.
  - inversion T as [|? ? o1 T1|? ? ? [D|D] T1]; subst; try discriminate. inversion T1 as [|? ? o2 T2|? ? ? D T2]; subst.
    + destruct (IH o2 T2) as (v' & I & Tv). exists (c :: v'). split; [now apply img_esc|now constructor].
    + assert (esc c = false) by (apply (esc_no l Hl); right; right; right; unfold ws_byte; lia). congruence.
  - repeat match goal with T : thin (?c :: _) ?o |- _ => inversion T as [|? ? ? ?|? ? ? [?|?] ?]; subst; clear T; try discriminate; try lia end.
    match goal with T : thin s ?o |- _ => destruct (IH o T) as (v' & I & Tv) end. exists (60 :: v'). split; [now apply img_lt|now constructor].
  - repeat match goal with T : thin (?c :: _) ?o |- _ => inversion T as [|? ? ? ?|? ? ? [?|?] ?]; subst; clear T; try discriminate; try lia end.
    match goal with T : thin s ?o |- _ => destruct (IH o T) as (v' & I & Tv) end. exists (62 :: v'). split; [now apply img_gt|now constructor].
Qed.
Lemma img_suffix u : Forall ws_byte u -> forall s v, img (u ++ s) v -> exists v', img s v' /\ v = u ++ v'.
Proof.
  induction 1 as [|c u W _ IH]; intros s v M; [eauto|]. cbn [app] in M. unfold ws_byte in W. inversion M; subst; try lia.
  match goal with H : img (u ++ s) _ |- _ => destruct (IH _ _ H) as (v' & I & ->) end. exists v'. auto.
Qed.
Lemma img_prefix z v : forall w, Forall ws_byte w -> img (z ++ w) v -> exists v', img z v' /\ v = v' ++ w.
Proof.
  assert (G : forall x v, img x v -> forall s w, x = s ++ w -> Forall ws_byte w -> exists v', img s v' /\ v = v' ++ w).
  { clear z v. induction 1 as [|c s v Z B A E M IH|c s v E M IH|s v M IH|s v M IH]; intros u w Ex W.
    - destruct u; [|discriminate]. cbn in Ex. subst w. exists []. split; [constructor|reflexivity].
    - destruct u as [|d u]; [cbn [app] in Ex; subst w|].
      + exists []. split; [constructor|]. inversion W; subst. destruct (IH [] s eq_refl) as (v' & I & E'); auto. inversion I; subst. reflexivity.
      + injection Ex as -> ->. destruct (IH u w eq_refl W) as (v' & I & ->). exists (d :: v'). split; auto. now apply img_plain.
    - destruct u as [|d u]; [cbn [app] in Ex; subst w; inversion W as [|? ? W1 W2]; unfold ws_byte in W1; lia|]. injection Ex as <- Ex.
      destruct u as [|d u]; [cbn [app] in Ex; subst w; inversion W as [|? ? W1 W2]; subst; assert (esc c = false) by (apply (esc_no l Hl); auto); congruence|].
      injection Ex as -> ->. destruct (IH u w eq_refl W) as (v' & I & ->). exists (d :: v'). split; auto. now apply img_esc.
    - destruct u as [|x1 [|x2 [|x3 [|x4 u]]]]; cbn [app] in Ex;
        try (first [injection Ex as <- <- <- Ex|injection Ex as <- <- Ex|injection Ex as <- Ex|idtac]; subst w; inversion W as [|? ? W1 W2]; unfold ws_byte in W1; lia).
      injection Ex as <- <- <- <- ->. destruct (IH u w eq_refl W) as (v' & I & ->). exists (60 :: v'). split; auto. now apply img_lt.
    - destruct u as [|x1 [|x2 [|x3 [|x4 u]]]]; cbn [app] in Ex;
        try (first [injection Ex as <- <- <- Ex|injection Ex as <- <- Ex|injection Ex as <- Ex|idtac]; subst w; inversion W as [|? ? W1 W2]; unfold ws_byte in W1; lia).
      injection Ex as <- <- <- <- ->. destruct (IH u w eq_refl W) as (v' & I & ->). exists (62 :: v'). split; auto. now apply img_gt. }
  intros w W M. now apply (G _ _ M z w eq_refl).
Qed.
(** the characters that are no white space stay *)
Variable keep : N -> bool.
Hypothesis Hkeep : forall c, keep c = true -> 33 <= c < 127.
Lemma keep_thin v o : thin v o -> filter keep o = filter keep v.
Proof.
  induction 1 as [|c v o T IH|c v o D T IH]; cbn [filter]; auto; [now rewrite IH|]. destruct (keep c) eqn:K; auto. apply Hkeep in K. lia.
Qed.
Lemma keep_ws w : Forall ws_byte w -> filter keep w = [].
Proof. induction 1 as [|c w W _ IH]; cbn [filter]; auto. destruct (keep c) eqn:K; auto. apply Hkeep in K. unfold ws_byte in W. lia. Qed.
Lemma img_trim s v : img s v -> exists v', img (post_trim s) v' /\ filter keep v' = filter keep v.
Proof.
  intros M. unfold post_trim. destruct (trim_space_ws s) as (u & w & E & Wu & Ww). rewrite E in M.
  apply img_suffix in M as (v1 & M & ->); auto. apply img_prefix in M as (v2 & M & ->); auto.
  destruct (img_thin _ _ M _ (thin_tcn _)) as (v3 & M3 & T3). destruct (img_thin _ _ M3 _ (thin_hard _)) as (v4 & M4 & T4).
  exists v4. split; auto. rewrite (keep_thin _ _ T4), (keep_thin _ _ T3), !filter_app, (keep_ws u), (keep_ws w) by auto. cbn [app]. now rewrite app_nil_r.
Qed.
(** the text in between *)
Inductive ent : bytes -> bytes -> Prop :=
| ent_nil : ent [] []
| ent_plain c s v : c <> 38 -> ent s v -> ent (c :: s) (c :: v)
| ent_lt s v : ent s v -> ent (38 :: 108 :: 116 :: 59 :: s) (60 :: v)
| ent_gt s v : ent s v -> ent (38 :: 103 :: 116 :: 59 :: s) (62 :: v).
Lemma img_split s v : img s v -> exists t, s = escape_content esc t /\ ent t v /\ ~ In 0 t /\ ~ In 7 t.
Proof.
  destruct esc_letters as (E1 & E2 & E3 & E4 & E5).
  induction 1 as [|c s v Z B A E M (t & -> & J & N0 & N7)|c s v E M (t & -> & J & N0 & N7)|s v M (t & -> & J & N0 & N7)|s v M (t & -> & J & N0 & N7)].
  - exists []. repeat split; auto. constructor.
  - exists (c :: t). rewrite (escape_cons l Hl), E. replace (c =? 0) with false by lia. repeat split; auto; [now apply ent_plain|intros [?|?]; auto|intros [?|?]; auto].
  - assert (Q := E). apply esc_in in Q. pose proof (Hl _ Q) as (L1 & L2 & L3 & _). apply Hp in Q as (_ & Q & _).
    exists (c :: t). rewrite (escape_cons l Hl), E. replace (c =? 0) with false by lia. repeat split; auto; [now apply ent_plain|intros [?|?]; auto|intros [?|?]; auto].
  - exists (38 :: 108 :: 116 :: 59 :: t). rewrite !(escape_cons l Hl), E1, E2, E3, E4. cbn. repeat split; auto; [now apply ent_lt|intuition lia|intuition lia].
  - exists (38 :: 103 :: 116 :: 59 :: t). rewrite !(escape_cons l Hl), E1, E2, E5, E4. cbn. repeat split; auto; [now apply ent_gt|intuition lia|intuition lia].
Qed.
(** out is t with some characters escaped *)
Inductive rd : bytes -> bytes -> Prop :=
| rd_nil : rd [] []
| rd_same c o t : c <> 92 -> rd o t -> rd (c :: o) (c :: t)
| rd_esc c o t : esc c = true -> rd o t -> rd (92 :: c :: o) (c :: t).
Lemma explains_rd : esc 92 = true -> forall t, ~ In 0 t -> ~ In 7 t -> forall D, explains (escape_content esc t) D ->
  (forall A B, D = A ++ (92, Lit) :: B -> escaped_here A) -> rd (map fst D) t.
Proof.
  intros E92. induction t as [|c t IH]; intros N0 N7 D X H.
  - cbn in X. inversion X; subst. constructor.
  - assert (N0' : ~ In 0 t) by (intros J; apply N0; now right). assert (N7' : ~ In 7 t) by (intros J; apply N7; now right).
    assert (C0 : c <> 0) by (intros ->; apply N0; now left). assert (C7 : c <> 7) by (intros ->; apply N7; now left).
    rewrite (escape_cons l Hl) in X. replace (c =? 0) with false in X by lia.
    assert (Tl : forall P D', D = P ++ D' -> (P <> [] -> exists P0 x k, P = P0 ++ [(x, k)] /\ k <> Ins) -> P <> [] -> forall A B, D' = A ++ (92, Lit) :: B -> escaped_here A).
    { intros P D' -> HP NP A B ->. destruct (H (P ++ A) B) as (A0 & EA); [now rewrite app_assoc|].
      destruct A as [|a A] using rev_ind.
      - destruct (HP NP) as (P0 & x & k & -> & Nk). rewrite app_nil_r in EA. apply app_inj_tail in EA as [_ EA]. injection EA as _ EA. congruence.
      - rewrite app_assoc in EA. apply app_inj_tail in EA as [_ ->]. now exists A. }
    destruct (esc c) eqn:E; cbn [app] in X.
    + inversion X as [|x s D' C X'|x s D' C X'|x s D' C X'| |]; subst; try congruence.
      * cbn [map fst]. apply rd_same; [|apply IH; auto].
        -- intros ->. destruct (H [] D' eq_refl) as (A0 & EA). destruct A0; discriminate.
        -- apply (Tl [(c, Lit)] D' eq_refl); [|discriminate]. intros _. exists [], c, Lit. split; [reflexivity|discriminate].
      * cbn [map fst]. apply rd_esc; auto. apply IH; auto.
        apply (Tl [(92, Ins); (c, Lit)] D' eq_refl); [|discriminate]. intros _. exists [(92, Ins)], c, Lit. split; [reflexivity|discriminate].
    + inversion X as [|x s D' C X'|x s D' C X'|x s D' C X'| |]; subst; try congruence. cbn [map fst]. apply rd_same; [intros ->; congruence|]. apply IH; auto.
      apply (Tl [(c, Raw)] D' eq_refl); [|discriminate]. intros _. exists [], c, Raw. split; [reflexivity|discriminate].
Qed.
Lemma rd_same_inv o c t : esc c = false -> rd o (c :: t) -> exists o', o = c :: o' /\ rd o' t.
Proof. intros E R. inversion R; subst; [eauto|congruence]. Qed.
Lemma read_rd t v : ent t v -> forall o, rd o t -> read_text 0 o = v.
Proof.
  destruct esc_letters as (E1 & E2 & E3 & E4 & E5).
  induction 1 as [|c s v N _ IH|s v _ IH|s v _ IH]; intros o R.
  - inversion R; subst. reflexivity.
  - inversion R as [|c' o' t' C R'|c' o' t' C R']; subst.
    + specialize (IH _ R'). destruct o' as [|d o']; [cbn in IH |- *; now rewrite <- IH|]. cbn [read_text]. replace (c =? 92) with false by lia. cbn [andb].
      change (b "&lt;") with (38 :: b "lt;"). change (b "&gt;") with (38 :: b "gt;"). cbn [has_prefix]. replace (38 =? c) with false by lia. cbn [andb]. f_equal. exact IH.
    + specialize (IH _ R'). cbn [read_text]. apply esc_in, Hp in C as (C & _). rewrite C. cbn. f_equal. exact IH.
  - apply rd_same_inv in R as (o1 & -> & R); auto. apply rd_same_inv in R as (o2 & -> & R); auto. apply rd_same_inv in R as (o3 & -> & R); auto.
    apply rd_same_inv in R as (o4 & -> & R); auto. specialize (IH _ R). cbn. now rewrite IH.
  - apply rd_same_inv in R as (o1 & -> & R); auto. apply rd_same_inv in R as (o2 & -> & R); auto. apply rd_same_inv in R as (o3 & -> & R); auto.
    apply rd_same_inv in R as (o4 & -> & R); auto. specialize (IH _ R). cbn. now rewrite IH.
Qed.
Lemma img_read ds s v : Escape.bundled ds -> esc 92 = true -> img s v -> read_text 0 (unescape_content ds s) = v.
Proof.
  intros Bd E92 M. apply img_split in M as (t & -> & J & N0 & N7). destruct (ctx_escape ds (escape_content esc t) Bd) as (D & X & <- & _ & H).
  apply (read_rd t v J). now apply explains_rd.
Qed.
End images.

(** ** Rendering, with the text it stands for *)
Section related.
Variable tok : bytes -> bool.
Variable e : env.
Variable hs : list renderer.
Variable ts : list text_handler.
Variable R : bytes -> bytes -> Prop.
Hypothesis Hhs : forall h, In h hs -> (exists cfg, h = commonmark_render cfg) \/ (exists d, h = strike_render d) \/ (exists t, h = table_render t).
Hypothesis R_nil : R [] [].
Hypothesis R_app : forall u v x y, R u x -> R v y -> R (u ++ v) (x ++ y).
Hypothesis R_nl : R [] [10; 10].
Hypothesis R_break : R [] break_text.
Hypothesis R_text : forall d, tok d = true -> R d (fold_left (fun s t => t e [] s) ts d).
Lemma R_around u x p q : R [] p -> R [] q -> R u x -> R u (p ++ x ++ q).
Proof. intros A B C. replace u with ([] ++ u ++ []) by (cbn; now rewrite app_nil_r). auto. Qed.
Lemma write_related ks rec : (forall k y, In k ks -> rec k = Done y -> R (text_of k) y) -> forall out, write_all (map rec ks) = Done out -> R (flat_map text_of ks) out.
Proof.
  induction ks as [|k ks IH]; intros H out E; cbn [map write_all] in E; [injection E as <-; auto|].
  destruct (rec k) as [x| |] eqn:Ek; try discriminate. cbn [bind] in E. destruct (write_all (map rec ks)) as [y| |]; try discriminate. cbn [bind] in E. injection E as <-.
  cbn [flat_map]. apply R_app; [apply H; auto; now left|]. apply IH; auto. intros; apply H; auto. now right.
Qed.
Lemma br_text cfg rec anc n : tame (node_name n) -> tidy n = true -> commonmark_render cfg e rec [] anc n = Done (true, break_text) -> text_of n = [].
Proof.
  intros T Td E. destruct (beqb (node_name n) (b "br")) eqn:Eb.
  - apply beqb_eq in Eb. destruct n as [d|z a ks|d|ks|d]; try discriminate Eb. cbn [node_name] in Eb. subst z. cbn [tidy] in Td. destruct ks; [reflexivity|discriminate Td].
  - exfalso. revert E. unfold commonmark_render. cbv zeta. unfold tame in T.
    rewrite (sub_names _ (bold_names ++ italic_names) _ T) by (intros z; cbn; tauto).
    rewrite (not_in_name _ _ (b "hr") T) by (cbn; tauto). rewrite Eb.
    assert (L : is_list_name (node_name n) = false).
    { unfold is_list_name. rewrite (not_in_name _ _ (b "ul") T) by (cbn; tauto). rewrite (not_in_name _ _ (b "ol") T) by (cbn; tauto). reflexivity. }
    rewrite L.
    rewrite (not_in_name _ _ (b "pre") T) by (cbn; tauto).
    rewrite (sub_names _ inline_code_names _ T) by (intros z; cbn; tauto).
    rewrite (not_in_name _ _ (b "blockquote") T) by (cbn; tauto).
    rewrite (sub_names _ heading_names _ T) by (intros z; cbn; tauto).
    rewrite (not_in_name _ _ (b "img") T) by (cbn; tauto).
    rewrite (not_in_name _ _ (b "a") T) by (cbn; tauto).
    rewrite (not_in_name _ _ (b "#comment") T) by (cbn; tauto).
    discriminate.
Qed.
Lemma try_related rec anc n hs' : incl hs' hs -> tame (node_name n) -> tidy n = true ->
  (forall x, render_kids rec [] anc n = Done x -> R (text_of n) x) ->
  forall out, try_renderers e hs' rec [] anc n = Done out -> R (text_of n) out.
Proof.
  intros Ih T Td K. induction hs' as [|h r IH]; intros out E; cbn [try_renderers] in E.
  - unfold fallback in E. destruct (render_kids rec [] anc n) as [x| |] eqn:Ek; try discriminate. cbn [bind] in E. injection E as <-.
    assert (A : R [] (if is_block_type (tag_type_of e (node_name n)) then [cNL; cNL] else [])) by (destruct (is_block_type _); auto).
    apply R_around; auto.
  - assert (G : h e rec [] anc n = Done (false, []) \/ exists y, h e rec [] anc n = Done (true, y) /\ R (text_of n) y \/ forall p, h e rec [] anc n <> Done p).
    { destruct (Hhs h) as [(cfg & ->)|[(d & ->)|(t & ->)]]; [apply Ih; now left| | |].
      - destruct (commonmark_tame e cfg rec [] anc n T) as [A|A]; [now left|]. right. exists break_text. left. split; auto. now rewrite (br_text cfg rec anc n T Td A).
      - left. unfold strike_render. rewrite (sub_names _ strike_names _ T) by (intros z; cbn; tauto). reflexivity.
      - unfold table_render. rewrite (not_in_name _ _ (b "table") T) by (cbn; tauto). destruct (beqb (node_name n) (b "tr")); [|now left]. right.
        destruct (render_kids rec [] anc n) as [x| |] eqn:Ek; cbn [bind]; [|exists []; right; discriminate|exists []; right; discriminate].
        exists ([cNL; cNL] ++ x ++ [cNL; cNL]). left. split; auto. apply R_around; auto. }
    destruct G as [G|(y & [(G & Iy)|G])].
    + rewrite G in E. cbn [bind fst snd] in E. destruct (try_renderers e r rec [] anc n) as [x| |] eqn:Er; try discriminate. cbn [bind app] in E. injection E as <-.
      apply IH; auto. intros z Iz. apply Ih. now right.
    + rewrite G in E. cbn [bind fst snd] in E. now injection E as <-.
    + destruct (h e rec [] anc n) as [p| |]; try discriminate. now elim (G p).
Qed.
Lemma render_related fuel : forall anc n out, plain_tree tok n = true -> tidy n = true -> render e hs ts fuel [] anc n = Done out -> R (text_of n) out.
Proof.
  induction fuel as [|f IH]; intros anc n out P Td E; [discriminate|]. cbn [render] in E.
  assert (K : forall x, (match n with Text _ => False | _ => True end) -> render_kids (render e hs ts f) [] anc n = Done x -> R (text_of n) x).
  { intros x Nt Ex. unfold render_kids in Ex.
    assert (Tx : text_of n = flat_map text_of (kids n)) by (destruct n; try reflexivity; destruct Nt). rewrite Tx.
    eapply write_related; [|exact Ex]. intros k y Ik Ek. apply (IH _ k y) in Ek; auto.
    - destruct n as [d|z a ks|d|ks|d]; cbn [kids] in Ik; try destruct Ik; cbn [plain_tree] in P.
      + apply andb_true_iff in P as [_ P]. rewrite forallb_forall in P. auto.
      + rewrite forallb_forall in P. auto.
    - destruct n as [d|z a ks|d|ks|d]; cbn [kids] in Ik; try destruct Ik; cbn [tidy] in Td.
      + apply andb_true_iff in Td as [_ Td]. rewrite forallb_forall in Td. specialize (Td k Ik). now apply andb_true_iff in Td.
      + rewrite forallb_forall in Td. specialize (Td k Ik). now apply andb_true_iff in Td. }
  assert (T : match n with Elem _ _ _ | Doc _ | Other _ => tame (node_name n) | _ => True end).
  { destruct n as [d|z a ks|d|ks|d]; auto; unfold tame; cbn [node_name]; try reflexivity. cbn [plain_tree] in P. apply andb_true_iff in P as [P _].
    now apply negb_true_iff in P. }
  destruct n as [d|z a ks|d|ks|d]; try discriminate P.
  - injection E as <-. now apply R_text.
  - now apply (try_related (render e hs ts f) anc (Elem z a ks) hs (incl_refl _) T Td (fun x => K x I) out).
  - now apply (try_related (render e hs ts f) anc (Doc ks) hs (incl_refl _) T Td (fun x => K x I) out).
  - now apply (try_related (render e hs ts f) anc (Other d) hs (incl_refl _) T Td (fun x => K x I) out).
Qed.
End related.

(** ** The whole conversion *)
Lemma readable_spec d : readable d = true <-> nm d = true /\ ~ In 38 d /\ ~ In 7 d.
Proof.
  unfold readable. rewrite andb_true_iff, forallb_forall. split.
  - intros [A B]. repeat split; auto; intros I; specialize (B _ I); discriminate.
  - intros (A & B & C). split; auto. intros c I. assert (c <> 38) by (intros ->; auto). assert (c <> 7) by (intros ->; auto). lia.
Qed.
Lemma collapse_in s : forall p c, In c (collapse_ws_from p s) -> In c s \/ c = 32.
Proof.
  induction s as [|d s IH]; intros p c I; [destruct I|]. cbn [collapse_ws_from] in I. destruct (is_ws d).
  - destruct p; [|destruct I as [<-|I]; [now right|]]; apply IH in I as [I|I]; auto; left; now right.
  - destruct I as [<-|I]; [left; now left|]. apply IH in I as [I|I]; auto. left. now right.
Qed.
Lemma plain_keep d keep : (forall c, keep c = true -> 33 <= c < 127) -> ~ In 7 d -> filter keep (plain d) = filter keep d.
Proof.
  intros Hk. induction d as [|c d IH]; intros N7; [reflexivity|]. unfold plain. cbn [flat_map]. fold (plain d). rewrite filter_app, IH by (intros I; apply N7; now right).
  replace (c =? 7) with false by (destruct (c =? 7) eqn:E; auto; apply N.eqb_eq in E; subst; elim N7; now left).
  destruct (c =? 0) eqn:E; cbn [filter app].
  - apply N.eqb_eq in E. subst c. assert (Q : forall x, ~ (33 <= x < 127) -> keep x = false) by (intros x Hx; destruct (keep x) eqn:K; auto; apply Hk in K; tauto).
    now rewrite !Q by lia.
  - destruct (keep c); reflexivity.
Qed.
Section readback.
Variable sort : forall A : Type, list (Z * A) -> list (Z * A).
Hypothesis Hsort : sorts sort.
Variable us : list use.
Variable url : bytes -> bytes -> bytes.
Notation cv := (converter_with Smart us).
Notation e := (env_of sort cv url).
Notation ds := (in_order sort (cv_unescape cv)).
Variable cfg : config.
Hypothesis Hone : exists A B, us = A ++ UseBase :: B /\ ~ In UseBase (A ++ B).
Hypothesis Hcm : In (UseCommonmark cfg) us.
Hypothesis Hcfg : valid_cfg cfg = true.
Let Hb : In UseBase us.
Proof. destruct Hone as (A & B & -> & _). apply in_app_iff. right. now left. Qed.
Lemma chars_punct c : In c (cv_chars cv) -> ascii_punct c = true /\ c <> 38 /\ c <> 59.
Proof.
  rewrite cw_chars. intros I. apply in_flat_map in I as (u & _ & I). destruct u as [|cf|d|os]; cbn [use_chars] in I.
  - destruct I.
  - destruct (valid_cfg cf); [|destruct I]. cbn [commonmark_escaped In] in I. repeat (destruct I as [<-|I]; [split; [reflexivity|lia]|]). destruct I.
  - destruct I as [<-|[]]. split; [reflexivity|lia].
  - destruct (apply_table_options os table_defaults) as [tc [?|]]; [destruct I|]. destruct I as [<-|[]]. split; [reflexivity|lia].
Qed.
Lemma one_base_text : exists A B, in_order sort (cv_text cv) = A ++ base_text :: B /\ (forall h, In h (A ++ B) -> h = commonmark_text).
Proof.
  destruct Hone as (A & B & E & Nb). pose proof (Hsort _ (cv_text cv)) as [Pm _]. rewrite cw_text in Pm at 2.
  assert (F : forall l, ~ In UseBase l -> forall y, In y (flat_map use_text l) -> y = (1000%Z, commonmark_text)).
  { intros l N y I. apply in_flat_map in I as (u & Iu & I). destruct u as [|cf|d|os]; cbn [use_text] in I.
    - elim N. exact Iu.
    - destruct (valid_cfg cf); [|destruct I]. destruct I as [<-|[]]. reflexivity.
    - destruct I.
    - destruct I. }
  assert (Ef : flat_map use_text us = flat_map use_text A ++ [(500%Z, base_text)] ++ flat_map use_text B) by (rewrite E, flat_map_app; reflexivity). rewrite Ef in Pm.
  assert (Ib : In (500%Z, base_text) (sort _ (cv_text cv))).
  { eapply Permutation_in; [apply Permutation_sym; exact Pm|]. apply in_app_iff. right. now left. }
  apply in_split in Ib as (P & Q & Es). rewrite Es in Pm. cbn [app] in Pm. apply Permutation_app_inv in Pm.
  exists (map snd P), (map snd Q). split.
  - unfold in_order. rewrite Es, map_app. reflexivity.
  - intros h I. rewrite <- map_app in I. apply in_map_iff in I as (y & <- & I). apply (Permutation_in _ Pm) in I.
    rewrite <- flat_map_app in I. apply (F (A ++ B) Nb) in I. now subst y.
Qed.
Lemma text_once d : fold_left (fun s t => t e [] s) (in_order sort (cv_text cv)) d = escape_content (escaped_char cv) (entity_replace d).
Proof.
  destruct one_base_text as (A & B & -> & H).
  assert (G : forall l, (forall h, In h l -> h = commonmark_text) -> forall s, fold_left (fun s t => t e [] s) l s = s).
  { clear. induction l as [|h l IH]; intros K s; auto. cbn [fold_left]. rewrite (K h (or_introl eq_refl)). change (commonmark_text e [] s) with s. apply IH. intros; apply K; now right. }
  rewrite fold_left_app. cbn [fold_left]. rewrite !G by (intros h I; apply H; apply in_app_iff; tauto).
  unfold base_text, env_of. cbn [escape_fn]. rewrite cw_mode. reflexivity.
Qed.
Variable keep : N -> bool.
Hypothesis Hkeep : forall c, keep c = true -> 33 <= c < 127.
Notation RI := (fun u s => exists v, img (cv_chars cv) s v /\ nm s = true /\ filter keep v = filter keep u).
Definition read_with (u x : bytes) : Prop := exists s, RI u s /\ x = unescape_content ds s.
Lemma ri_trim u s : RI u s -> RI u (post_trim s).
Proof.
  intros (v & A & B & C). destruct (img_trim _ (chars_ok Smart us) chars_punct keep Hkeep _ _ A) as (v' & A' & C'). exists v'. repeat split; auto; [now apply nm_trim|congruence].
Qed.
Lemma read_unescape u x : read_with u x -> read_with u (base_unescape e x).
Proof.
  intros (s & H & ->). exists s. split; auto. unfold base_unescape, env_of. cbn [unescape_fn]. rewrite cw_mode. cbn [unescape_with].
  apply unescape_none. apply unescape_no7.
Qed.
Lemma read_newline u x : read_with u x -> read_with u (commonmark_post e x).
Proof.
  intros (s & H & ->). exists s. split; auto. destruct H as (v & _ & H & _). unfold commonmark_post, post_newline. apply replace_none. intros J.
  pose proof (content_inserts ds s (only_wb _ (unescapers_only sort Hsort Smart us))) as Q.
  apply (inserts_infix _ _ Q) in J; [|cbn; intuition discriminate]. revert J. apply nm_no_mark. now apply nm_bells.
Qed.
Lemma posts_read u l : (forall q k, In (q, k) l -> In (q, k) (flat_map use_post us)) -> by_priority l ->
  (forall x, read_with u x -> (forall y, In y l -> (520 <= fst y)%Z) -> read_with u (fold_left (fun s h => h e s) (map snd l) x)) /\
  (forall s, RI u s -> In (520%Z, base_unescape) l -> read_with u (fold_left (fun s h => h e s) (map snd l) s)).
Proof.
  intros Sub Srt. unfold by_priority in Srt. apply Sorted_StronglySorted in Srt; [|intros a b0 c0; lia].
  induction l as [|[q k] l IH]; [split; [auto|intros s _ []]|]. inversion Srt as [|? ? S1 S2]; subst.
  destruct IH as [IH1 IH2]; auto; [intros; apply Sub; now right|]. cbn [map fold_left snd]. split.
  - intros x D L. apply IH1; [|intros; apply L; now right]. specialize (L _ (or_introl eq_refl)). cbn [fst] in L.
    destruct (use_post_cases us q k (Sub _ _ (or_introl eq_refl))) as [(-> & ->)|[(-> & ->)|(-> & ->)]]; [lia|now apply read_unescape|now apply read_newline].
  - intros s M I. destruct (use_post_cases us q k (Sub _ _ (or_introl eq_refl))) as [(-> & ->)|[(-> & ->)|(-> & ->)]].
    + destruct I as [I|I]; [discriminate|]. apply IH2; auto. now apply ri_trim.
    + apply IH1.
      * exists s. split; auto. unfold base_unescape, env_of. cbn [unescape_fn]. now rewrite cw_mode.
      * intros y Iy. rewrite Forall_forall in S2. exact (S2 y Iy).
    + destruct I as [I|I]; [discriminate|]. rewrite Forall_forall in S2. specialize (S2 _ I). cbn [fst] in S2. lia.
Qed.
Lemma readable_app x y : readable x = true -> readable y = true -> readable (x ++ y) = true.
Proof.
  rewrite !readable_spec. intros (A & B & C) (D & E & F). split; [now apply nm_app|]. split; intros I; apply in_app_iff in I as [I|I]; auto.
Qed.
Lemma readable_collapse d : readable d = true -> readable (collapse_ws d) = true.
Proof.
  rewrite !readable_spec. intros (A & B & C). split; [now apply nm_collapse|]. unfold collapse_ws. split; intros I; apply collapse_in in I as [I|I]; auto; discriminate.
Qed.
Lemma readable_tail r : readable (32 :: r) = true -> readable r = true.
Proof. rewrite !readable_spec. intros (A & B & C). split; [exact A|]. split; intros I; [apply B|apply C]; now right. Qed.
Lemma readable_init r : readable (r ++ [32]) = true -> readable r = true.
Proof.
  rewrite !readable_spec. intros (A & B & C). split; [apply (nm_prefix r [32] eq_refl A)|]. split; intros I; [apply B|apply C]; apply in_app_iff; now left.
Qed.
Lemma plain_read doc out : markup_free readable doc = true -> invisible doc = false -> tidy doc = true -> (forall c, keep c = true -> unquoted c = true) ->
  converts (convert_node sort cv url doc) out -> filter keep (read_text 0 out) = filter keep (visible_text doc).
Proof.
  intros P Iv Td Hq C. eapply convert_done in C; [|reflexivity]. unfold run_conversion in C. cbv zeta in C.
  pose proof (prepared_plain readable readable_app eq_refl readable_collapse readable_tail readable_init sort Hsort Smart us url doc Hb P Iv) as P'.
  destruct (prepared_text sort Hsort keep Hq Smart us url doc Hb Td Iv) as [Tx Td']. unfold chars in Tx. rewrite <- Tx. revert C P' Td'. generalize (prepared sort cv url doc) as d.
  intros d C P' Td'.
  destruct (render _ _ _ _ _ _ _) as [s| |] eqn:Rn; cbn [bind] in C; try discriminate. injection C as <-.
  assert (W : forall c, c = 10 \/ c = 32 -> forall s v, img (cv_chars cv) s v -> img (cv_chars cv) (c :: s) (c :: v)).
  { intros c Hc s0 v I. apply img_plain; auto; try lia. apply (esc_no _ (chars_ok Smart us)). unfold ws_byte. lia. }
  assert (Kw : keep 10 = false /\ keep 32 = false) by (split; [destruct (keep 10) eqn:K|destruct (keep 32) eqn:K]; auto; apply Hkeep in K; lia).
  assert (M : RI (text_of d) s).
  { apply (render_related readable) with (7 := P') (8 := Td') (9 := Rn).
    - apply (renderers_known sort Hsort).
    - exists []. repeat split. constructor.
    - intros u v x y (v1 & A1 & A2 & A3) (v2 & B1 & B2 & B3). exists (v1 ++ v2). repeat split; [now apply img_app|now apply nm_app|now rewrite !filter_app, A3, B3].
    - exists [10; 10]. repeat split; [repeat (apply W; auto); constructor|]. cbn [filter]. now rewrite (proj1 Kw).
    - exists [32; 32; 10]. change break_text with [32; 32; 10]. repeat split; [repeat (apply W; auto); constructor|]. cbn [filter]. now rewrite (proj1 Kw), (proj2 Kw).
    - intros x Rx. rewrite text_once. apply readable_spec in Rx as (R1 & R2 & R3). exists (plain x). repeat split.
      + apply (img_text _ (chars_ok Smart us) chars_punct); auto.
      + apply (nm_escape _ (chars_ok Smart us)). now apply nm_entity.
      + now apply plain_keep. }
  unfold in_order at 1. destruct (Hsort _ (cv_post cv)) as [Pm Sr].
  destruct (posts_read (text_of d) (sort _ (cv_post cv))) as [_ G].
  - intros q k I. rewrite <- (cw_post Smart us). eapply Permutation_in; [exact Pm|exact I].
  - exact Sr.
  - destruct (G s M) as (s' & (v & A & _ & B) & ->).
    + eapply Permutation_in; [apply Permutation_sym; exact Pm|]. rewrite cw_post. apply in_flat_map. exists UseBase. split; auto. right. now left.
    + rewrite <- B. f_equal. apply (img_read _ (chars_ok Smart us) chars_punct keep Hkeep); auto.
      * apply (unescapers_bundled sort Hsort Smart us cfg); auto.
      * apply (protects_uses Smart us cfg Hcm Hcfg 92). cbn. tauto.
Qed.
End readback.
