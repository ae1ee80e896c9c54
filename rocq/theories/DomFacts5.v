(** Whitespace collapse of a tree (C17). *)
From Coq Require Import List NArith ZArith Bool String Lia.
From Verif Require Import Bytes BytesFacts TextUtils TextFacts Dom DomUtils Collapse SpecDom RenderInv DomFacts DomFacts2.
Import ListNotations.
Open Scope N_scope.
Open Scope list_scope.

Lemma verbatim_eq : forall x, name_in verbatim_names x = is_preformatted x.
Proof. intros x. unfold name_in, is_preformatted. cbn [verbatim_names existsb]. now rewrite orb_false_r. Qed.

(** ** Elements stay *)
Section walk.
Variable is_block : bytes -> bool.
Notation bs := (flat_map bones).
Lemma lead_list_bones : forall ks, Forall (fun n => forall s, bs (snd (lead is_block s n)) = bones n) ks ->
  forall s, bs (snd (lead_list is_block s ks)) = bs ks.
Proof.
  intros ks H. induction H as [|k ks Hk H IH]; intros s; auto. cbn [lead_list flat_map]. specialize (Hk s). destruct (lead is_block s k) as [s1 k'].
  specialize (IH s1). destruct (lead_list is_block s1 ks) as [s2 r']. cbn [snd] in *. now rewrite flat_map_app, Hk, IH.
Qed.
Lemma lead_bones : forall n s, bs (snd (lead is_block s n)) = bones n.
Proof.
  induction n using node_induction; intros s; auto.
  - cbn [lead]. destruct (lead_text s d); reflexivity.
  - rewrite lead_elem. cbv zeta. cbn [bones]. rewrite verbatim_eq. destruct (is_preformatted x) eqn:Ep.
    + cbn [snd flat_map bones]. now rewrite verbatim_eq, Ep.
    + rewrite lead_kids_eq. pose proof (lead_list_bones ks H (visit (effect_of is_block x) s)) as A.
      destruct (lead_list is_block (visit (effect_of is_block x) s) ks) as [s2 ks']. cbn [snd flat_map bones] in *. now rewrite verbatim_eq, Ep, A.
Qed.
Lemma trail_list_bones : forall ks, Forall (fun n => forall tr, bones (snd (trail is_block tr n)) = bones n) ks ->
  forall tr, bs (snd (trail_list is_block tr ks)) = bs ks.
Proof.
  intros ks H. induction H as [|k ks Hk H IH]; intros tr; auto. cbn [trail_list flat_map]. specialize (IH tr).
  destruct (trail_list is_block tr ks) as [t1 r']. specialize (Hk t1). destruct (trail is_block t1 k) as [t2 k']. cbn [snd flat_map] in *. now rewrite Hk, IH.
Qed.
Lemma trail_bones : forall n tr, bones (snd (trail is_block tr n)) = bones n.
Proof.
  induction n using node_induction; intros tr; auto.
  rewrite trail_elem. cbv zeta. cbn [bones]. rewrite verbatim_eq. destruct (is_preformatted x) eqn:Ep.
  - cbn [snd bones]. now rewrite verbatim_eq, Ep.
  - rewrite trail_kids_eq. pose proof (trail_list_bones ks H (visit_back (effect_of is_block x) tr)) as A.
    destruct (trail_list _ _ ks) as [tr2 ks']. cbn [snd bones] in *. now rewrite verbatim_eq, Ep, A.
Qed.
Lemma drop_list_bones : forall ks, Forall (fun n => bs (snd (drop_last is_block n)) = bones n) ks -> bs (snd (drop_last_list is_block ks)) = bs ks.
Proof.
  intros ks H. induction H as [|k ks Hk H IH]; auto. cbn [drop_last_list flat_map]. destruct (drop_last_list is_block ks) as [[] r']; cbn [snd flat_map] in *.
  - now rewrite IH.
  - destruct (drop_last is_block k) as [f2 k']. cbn [snd] in *. now rewrite flat_map_app, Hk, IH.
Qed.
Lemma effect_preformatted : forall x, is_preformatted x = true -> effect_of is_block x <> EInline.
Proof.
  intros x E. unfold effect_of. destruct (is_block x || beqb x (b "br")); [discriminate|]. now rewrite E, orb_true_r.
Qed.
Lemma drop_bones : forall n, bs (snd (drop_last is_block n)) = bones n.
Proof.
  induction n using node_induction; auto.
  - cbn [drop_last]. destruct d; reflexivity.
  - rewrite drop_elem. cbn [bones]. rewrite verbatim_eq. pose proof (effect_preformatted x) as P.
    destruct (effect_of is_block x); try (cbn [snd flat_map bones]; rewrite verbatim_eq; now destruct (is_preformatted x)).
    destruct (is_preformatted x) eqn:Ep; [now contradiction P|].
    rewrite drop_kids_eq. pose proof (drop_list_bones ks H) as A. destruct (drop_last_list is_block ks) as [f ks'].
    cbn [snd flat_map bones] in *. now rewrite verbatim_eq, Ep, A.
Qed.
Lemma collapse_bones : forall ks, bs (collapse_kids is_block ks) = bs ks.
Proof.
  intros ks. unfold collapse_kids. rewrite drop_list_bones by (apply Forall_forall; intros; apply drop_bones).
  rewrite trail_list_bones by (apply Forall_forall; intros; apply trail_bones).
  apply lead_list_bones. apply Forall_forall. intros. apply lead_bones.
Qed.

(** ** The walk on the sequence of texts and borders *)
Definition tok_effect (t : tok) : option effect :=
  match t with TkText _ => None | TkBlock => Some EBlock | TkSolid => Some EKeep | TkInline => Some EInline end.
Lemma name_in_cons : forall y l x, name_in (y :: l) x = beqb x y || name_in l x.
Proof. reflexivity. Qed.
Lemma name_in_app : forall l1 l2 x, name_in (l1 ++ l2) x = name_in l1 x || name_in l2 x.
Proof. intros. unfold name_in. apply existsb_app. Qed.
Lemma border_effect : forall x, tok_effect (border is_block x) = Some (effect_of is_block x).
Proof.
  intros x. unfold border, effect_of. destruct (is_block x); auto. destruct (beqb x (b "br")) eqn:Eb; auto. cbn [orb].
  replace (name_in void_names x || is_preformatted x || beqb x (b "code")) with (name_in solid_names x). now destruct (name_in solid_names x).
  unfold is_preformatted, solid_names, void_names. cbn [map]. rewrite !name_in_cons, Eb. unfold name_in at 1 2. cbn [existsb].
  repeat match goal with |- context [beqb x ?y] => destruct (beqb x y); [reflexivity | cbn [orb]] end; reflexivity.
Qed.
Fixpoint lead_toks (s : cstate) (l : list tok) : cstate * list tok :=
  match l with
  | [] => (s, [])
  | TkText d :: r =>
      match lead_text s d with
      | None => lead_toks s r
      | Some t => let '(s2, r') := lead_toks (Some (has_suffix [cSP] t), snd s) r in (s2, TkText t :: r')
      end
  | e :: r => let '(s2, r') := lead_toks (match tok_effect e with Some f => visit f s | None => s end) r in (s2, e :: r')
  end.
Lemma lead_toks_app : forall a c s, lead_toks s (a ++ c) =
  let '(s1, a') := lead_toks s a in let '(s2, c') := lead_toks s1 c in (s2, a' ++ c').
Proof.
  induction a as [|e a IH]; intros c s; cbn [app lead_toks]. now destruct (lead_toks s c).
  destruct e; [destruct (lead_text s d)|..]; rewrite IH; auto;
    match goal with |- context [lead_toks ?s a] => destruct (lead_toks s a) as [s1 a'] end; destruct (lead_toks s1 c); reflexivity.
Qed.
Lemma lead_border : forall x s r, lead_toks s (border is_block x :: r) =
  let '(s2, r') := lead_toks (visit (effect_of is_block x) s) r in (s2, border is_block x :: r').
Proof.
  intros x s r. pose proof (border_effect x) as E. destruct (border is_block x); cbn [tok_effect] in E; [discriminate|..]; injection E as <-; reflexivity.
Qed.
Lemma visit_twice : forall e s, visit e (visit e s) = visit e s.
Proof. intros [] [[] []]; reflexivity. Qed.
Notation fl := (flat_map (flow is_block)).
Definition led (n : node) : Prop := forall s, lead_toks s (flow is_block n) = (fst (lead is_block s n), fl (snd (lead is_block s n))).
Lemma lead_list_flow : forall ks, Forall led ks -> forall s, lead_toks s (fl ks) = (fst (lead_list is_block s ks), fl (snd (lead_list is_block s ks))).
Proof.
  intros ks H. induction H as [|k ks Hk H IH]; intros s; auto. cbn [lead_list flat_map]. rewrite lead_toks_app, (Hk s).
  destruct (lead is_block s k) as [s1 k']. cbn [fst snd]. rewrite (IH s1). destruct (lead_list is_block s1 ks) as [s2 r']. cbn [fst snd]. now rewrite flat_map_app.
Qed.
Lemma lead_flow : forall n, led n.
Proof.
  induction n using node_induction; intros s; auto.
  - cbn [flow lead_toks lead]. destruct (lead_text s d); reflexivity.
  - cbn [flow app]. rewrite lead_border, lead_toks_app, lead_elem. cbv zeta. rewrite verbatim_eq. destruct (is_preformatted x) eqn:Ep.
    + change (lead_toks (visit (effect_of is_block x) s) []) with (visit (effect_of is_block x) s, @nil tok). cbv beta iota.
      rewrite lead_border. cbn [lead_toks fst snd flat_map flow]. rewrite verbatim_eq, Ep, visit_twice. reflexivity.
    + rewrite lead_kids_eq, lead_list_flow by auto.
      destruct (lead_list is_block (visit (effect_of is_block x) s) ks) as [s2 ks']. cbn [fst snd]. rewrite lead_border. cbn [lead_toks fst snd flat_map flow].
      rewrite verbatim_eq, Ep. now rewrite app_nil_r.
Qed.
Fixpoint trail_toks (tr : bool) (l : list tok) : bool * list tok :=
  match l with
  | [] => (tr, [])
  | e :: r => let '(t, r') := trail_toks tr r in
              match tok_effect e with
              | Some f => (visit_back f t, e :: r')
              | None => match e with TkText d => (false, TkText (if t then trim_suffix_space d else d) :: r') | _ => (t, e :: r') end
              end
  end.
Lemma trail_toks_app : forall a c tr, trail_toks tr (a ++ c) =
  let '(t1, c') := trail_toks tr c in let '(t2, a') := trail_toks t1 a in (t2, a' ++ c').
Proof.
  induction a as [|e a IH]; intros c tr; cbn [app trail_toks]. now destruct (trail_toks tr c).
  rewrite IH. destruct (trail_toks tr c) as [t1 c']. destruct (trail_toks t1 a) as [t2 a']. destruct (tok_effect e); auto. destruct e; auto.
Qed.
Lemma trail_border : forall x tr r, trail_toks tr (border is_block x :: r) =
  let '(t, r') := trail_toks tr r in (visit_back (effect_of is_block x) t, border is_block x :: r').
Proof. intros x tr r. cbn [trail_toks]. now rewrite border_effect. Qed.
Lemma visit_back_twice : forall e t, visit_back e (visit_back e t) = visit_back e t.
Proof. intros [] []; reflexivity. Qed.
Definition trailed (n : node) : Prop := forall tr, trail_toks tr (flow is_block n) = (fst (trail is_block tr n), flow is_block (snd (trail is_block tr n))).
Lemma trail_list_flow : forall ks, Forall trailed ks -> forall tr, trail_toks tr (fl ks) = (fst (trail_list is_block tr ks), fl (snd (trail_list is_block tr ks))).
Proof.
  intros ks H. induction H as [|k ks Hk H IH]; intros tr; auto. cbn [trail_list flat_map]. rewrite trail_toks_app, (IH tr).
  destruct (trail_list is_block tr ks) as [t1 r']. cbn [fst snd]. rewrite (Hk t1). destruct (trail is_block t1 k) as [t2 k']. reflexivity.
Qed.
Lemma trail_flow : forall n, trailed n.
Proof.
  induction n using node_induction; intros tr; auto.
  cbn [flow app]. rewrite trail_border, trail_toks_app, trail_border, trail_elem. cbn [trail_toks]. cbv zeta. rewrite verbatim_eq. destruct (is_preformatted x) eqn:Ep.
  - cbn [trail_toks app fst snd flow]. rewrite verbatim_eq, Ep, visit_back_twice. reflexivity.
  - rewrite trail_kids_eq, trail_list_flow by auto. destruct (trail_list is_block (visit_back (effect_of is_block x) tr) ks) as [t2 ks'].
    cbn [fst snd flow]. now rewrite verbatim_eq, Ep.
Qed.
(** without empty texts *)
Definition solid (t : tok) : bool := match t with TkText [] => false | _ => true end.
Lemma drop_list_flow : forall ks, Forall (fun n => filter solid (fl (snd (drop_last is_block n))) = filter solid (flow is_block n)) ks ->
  filter solid (fl (snd (drop_last_list is_block ks))) = filter solid (fl ks).
Proof.
  intros ks H. induction H as [|k ks Hk H IH]; auto. cbn [drop_last_list flat_map]. rewrite filter_app, <- IH.
  destruct (drop_last_list is_block ks) as [[] r']; cbn [snd flat_map] in *. now rewrite filter_app.
  destruct (drop_last is_block k) as [f2 k']. cbn [snd] in *. now rewrite flat_map_app, filter_app, Hk.
Qed.
Lemma drop_flow : forall n, filter solid (fl (snd (drop_last is_block n))) = filter solid (flow is_block n).
Proof.
  induction n using node_induction; auto.
  - cbn [drop_last]. destruct d; reflexivity.
  - rewrite drop_elem. pose proof (effect_preformatted x) as P.
    destruct (effect_of is_block x); try (cbn [snd flat_map]; now rewrite app_nil_r). destruct (is_preformatted x) eqn:Ep; [now contradiction P|].
    rewrite drop_kids_eq. pose proof (drop_list_flow ks H) as A. destruct (drop_last_list is_block ks) as [f ks'].
    cbn [snd flat_map flow] in *. rewrite app_nil_r, !verbatim_eq, Ep, !filter_app. now rewrite A.
Qed.
Lemma well_spaced_solid : forall l p, well_spaced p (filter solid l) = well_spaced p l.
Proof.
  induction l as [|e l IH]; intros p; auto. destruct e as [[|c d]|  | |]; cbn [filter solid well_spaced]; rewrite ?IH; auto.
Qed.
End walk.

(** ** What the walk does to the sequence *)
Fixpoint led_spaced (before : option bool) (l : list tok) : bool :=
  match l with
  | [] => true
  | TkBlock :: r => led_spaced None r
  | TkSolid :: r => led_spaced (Some false) r
  | TkInline :: r => led_spaced before r
  | TkText d :: r =>
      negb (is_empty d) && (negb (starts_blank d) || match before with Some false => true | _ => false end) && single_spaced d
      && led_spaced (Some (ends_blank d)) r
  end.
Lemma single_tail : forall c s, single_spaced (c :: s) = true -> single_spaced s = true.
Proof. intros c s H. cbn [single_spaced] in H. apply andb_true_iff in H as [_ H]. exact H. Qed.
Lemma collapse_single : forall s p, single_spaced (collapse_ws_from p s) = true /\ (p = true -> starts_blank (collapse_ws_from p s) = false).
Proof.
  induction s as [|c s IH]; intros p; [split; auto|]. cbn [collapse_ws_from]. destruct (is_ws c) eqn:E.
  - destruct p; auto. destruct (IH true) as [A B]. split; [|discriminate]. cbn [single_spaced]. rewrite A.
    specialize (B eq_refl). unfold starts_blank in B. rewrite B. now rewrite andb_false_r.
  - destruct (IH false) as [A _]. unfold is_ws in E. cbn [single_spaced starts_blank]. rewrite A.
    assert (F : (c =? 32) = false /\ (c =? 9) = false /\ (c =? 10) = false /\ (c =? 13) = false).
    { unfold cSP, cCR, cNL, cTAB in E. lia. }
    destruct F as (F1 & F2 & F3 & F4). rewrite F1, F2, F3, F4. auto.
Qed.
Lemma ends_blank_suffix : forall s, has_suffix [cSP] s = ends_blank s.
Proof.
  intros s. unfold ends_blank. destruct (has_suffix [cSP] s) eqn:E.
  - apply has_suffix_iff in E as [r ->]. rewrite rev_app_distr. reflexivity.
  - destruct (starts_blank (rev s)) eqn:F; auto. destruct (rev s) as [|c r] eqn:Er; [discriminate|]. cbn [starts_blank] in F. apply N.eqb_eq in F. subst c.
    assert (K : has_suffix [cSP] s = true); [|congruence]. apply has_suffix_iff. exists (rev r). rewrite <- (rev_involutive s), Er. reflexivity.
Qed.
Definition starts_text (l : list tok) : bool := match l with TkText _ :: _ => true | _ => false end.
(** the state of the walk and what was met last *)
Definition agree (s : cstate) (p : option bool) (l : list tok) : Prop :=
  match s with
  | (None, false) => p = None
  | (None, true) => p = Some false
  | (Some e, false) => p = Some e
  | (Some e, true) => p = Some e /\ starts_text l = false
  end.
Lemma no_run_cons : forall e l, no_text_run (e :: l) = true -> no_text_run l = true /\ (match e with TkText _ => starts_text l = false | _ => True end).
Proof. intros e l H. destruct e; cbn [no_text_run] in H; auto. destruct l as [|[] l]; auto. discriminate. Qed.
Lemma agree_text : forall s p d l, agree s p (TkText d :: l) -> agree s p l.
Proof. intros [[e|] []] p d l; cbn [agree starts_text]; auto. intros [_ H]. discriminate. Qed.
Lemma lead_text_ok : forall s p d l t, agree s p (TkText d :: l) -> lead_text s d = Some t ->
  negb (is_empty t) && (negb (starts_blank t) || match p with Some false => true | _ => false end) && single_spaced t = true.
Proof.
  intros s p d l t A E. unfold lead_text in E. destruct (collapse_single d false) as [C _]. unfold collapse_ws in E.
  destruct (collapse_ws_from false d) as [|c r]; [discriminate|]. cbv zeta in E.
  assert (Cr := single_tail _ _ C).
  destruct s as [[e|] k]; cbn [fst snd agree] in *.
  - destruct k.
    + destruct A as [_ A]. discriminate.
    + subst p. destruct e; cbn [negb andb] in E.
      * destruct (c =? cSP) eqn:Ec.
        -- destruct r as [|c2 r]; [discriminate|]. cbn [is_empty] in E. injection E as <-. cbn [is_empty negb andb]. rewrite Cr, andb_true_r.
           cbn [single_spaced] in C. unfold cSP in Ec. rewrite Ec in C. cbn [starts_blank andb] in *. destruct (c2 =? 32); [|reflexivity].
           cbn [negb] in C. rewrite andb_false_r in C. discriminate.
        -- cbn [is_empty] in E. injection E as <-. cbn [is_empty negb andb starts_blank]. unfold cSP in Ec. now rewrite Ec, C.
      * cbn [is_empty] in E. injection E as <-. cbn [is_empty negb andb]. now rewrite C, orb_true_r.
  - destruct k; subst p; cbn [negb andb] in E.
    + cbn [is_empty] in E. injection E as <-. cbn [is_empty negb andb]. now rewrite C, orb_true_r.
    + destruct (c =? cSP) eqn:Ec.
      -- destruct r as [|c2 r]; [discriminate|]. cbn [is_empty] in E. injection E as <-. cbn [is_empty negb andb]. rewrite Cr, andb_true_r.
         cbn [single_spaced] in C. unfold cSP in Ec. rewrite Ec in C. cbn [starts_blank andb] in *. destruct (c2 =? 32); [|reflexivity].
         cbn [negb] in C. rewrite andb_false_r in C. discriminate.
      -- cbn [is_empty] in E. injection E as <-. cbn [is_empty negb andb starts_blank]. unfold cSP in Ec. now rewrite Ec, C.
Qed.
Lemma lead_toks_spaced : forall l s p, no_text_run l = true -> agree s p l -> led_spaced p (snd (lead_toks s l)) = true.
Proof.
  induction l as [|e l IH]; intros s p N A; auto. apply no_run_cons in N as [N1 N2]. destruct e; cbn [lead_toks].
  - destruct (lead_text s d) as [t|] eqn:E.
    + pose proof (lead_text_ok s p d l t A E) as K. specialize (IH (Some (has_suffix [cSP] t), snd s) (Some (ends_blank t)) N1).
      destruct (lead_toks (Some (has_suffix [cSP] t), snd s) l) as [s2 r']. cbn [snd led_spaced] in *. rewrite K. apply IH.
      rewrite ends_blank_suffix. destruct s as [f []]; cbn [snd agree]; auto.
    + apply IH; auto. eapply agree_text; eauto.
  - cbn [tok_effect visit]. specialize (IH (None, false) None N1 eq_refl). destruct (lead_toks (None, false) l). exact IH.
  - cbn [tok_effect visit]. specialize (IH (None, true) (Some false) N1 eq_refl). destruct (lead_toks (None, true) l). exact IH.
  - cbn [tok_effect]. specialize (IH (visit EInline s) p N1). destruct (lead_toks (visit EInline s) l). cbn [snd led_spaced] in *. apply IH.
    destruct s as [[e|] []]; cbn [visit fst agree] in *; auto. now destruct A.
Qed.
Definition unblank (p : option bool) : option bool := match p with Some _ => Some false | None => None end.
Lemma trim_suffix_single : forall d, single_spaced d = true -> single_spaced (trim_suffix_space d) = true /\ ends_blank (trim_suffix_space d) = false
  /\ (trim_suffix_space d = [] -> d <> [] -> starts_blank d = true) /\ (trim_suffix_space d <> [] -> starts_blank (trim_suffix_space d) = starts_blank d).
Proof.
  intros d H. unfold trim_suffix_space. rewrite ends_blank_suffix. destruct (ends_blank d) eqn:E.
  - rewrite <- ends_blank_suffix in E. apply has_suffix_iff in E as [r ->]. rewrite removelast_last.
    assert (P : single_spaced r = true /\ ends_blank r = false).
    { clear - H. induction r as [|c r IH]; auto. destruct (IH (single_tail _ _ H)) as [A B]. clear IH. split.
      - cbn [app single_spaced] in *. rewrite A, andb_true_r. apply andb_true_iff in H as [H _]. apply andb_true_iff in H as [H1 H2]. rewrite H1.
        destruct r; [|exact H2]. now rewrite andb_false_r.
      - destruct r as [|c2 r].
        + cbn [app single_spaced] in H. apply andb_true_iff in H as [H _]. apply andb_true_iff in H as [_ H]. unfold cSP in H. rewrite N.eqb_refl, andb_true_r in H.
          apply negb_true_iff in H. exact H.
        + unfold ends_blank in *. cbn [rev] in *. destruct (rev r) as [|f q]; auto. }
    destruct P as [P1 P2]. repeat split; auto.
    + intros ->. reflexivity.
    + intros N. destruct r; [contradiction | reflexivity].
  - repeat split; auto; try (intros -> N; contradiction).
Qed.
Lemma trail_toks_spaced : forall l p, led_spaced p l = true ->
  let '(t, l') := trail_toks true l in well_spaced (if t : bool then unblank p else p) l' = true.
Proof.
  induction l as [|e l IH]; intros p H; cbn [trail_toks]. now destruct p as [[]|].
  destruct e; cbn [led_spaced tok_effect] in *.
  - apply andb_true_iff in H as [H1 H2]. apply andb_true_iff in H1 as [H1 H3]. apply andb_true_iff in H1 as [H0 H1].
    specialize (IH _ H2). destruct (trail_toks true l) as [t l']. destruct t.
    + destruct (trim_suffix_single d H3) as (A & B & C & D). cbn [well_spaced]. destruct (trim_suffix_space d) as [|c r].
      * destruct d as [|c d]; [discriminate|]. rewrite C in H1 by (auto; discriminate). destruct p as [[]|]; try discriminate. exact IH.
      * rewrite D by discriminate. rewrite H1, A, B. exact IH.
    + cbn [well_spaced]. destruct d as [|c d]; [discriminate|]. now rewrite H1, H3.
  - specialize (IH _ H). destruct (trail_toks true l) as [t l']. cbn [visit_back well_spaced]. destruct t, p as [[]|]; exact IH.
  - specialize (IH _ H). destruct (trail_toks true l) as [t l']. cbn [visit_back well_spaced]. destruct t; exact IH.
  - specialize (IH _ H). destruct (trail_toks true l) as [t l']. cbn [visit_back well_spaced]. destruct t; exact IH.
Qed.
Lemma trail_start : forall l, led_spaced None l = true -> well_spaced None (snd (trail_toks true l)) = true.
Proof. intros l H. pose proof (trail_toks_spaced l None H) as K. destruct (trail_toks true l) as [[] l']; exact K. Qed.
Lemma collapse_spaced : forall is_block ks, no_text_run (flat_map (flow is_block) ks) = true ->
  well_spaced None (flat_map (flow is_block) (collapse_kids is_block ks)) = true.
Proof.
  intros is_block ks H. unfold collapse_kids.
  set (k1 := snd (lead_list is_block (None, false) ks)). set (k2 := snd (trail_list is_block true k1)).
  rewrite <- well_spaced_solid, drop_list_flow, well_spaced_solid by (apply Forall_forall; intros; apply drop_flow).
  pose proof (trail_list_flow is_block k1 (proj2 (Forall_forall _ _) (fun k _ => trail_flow is_block k)) true) as T.
  pose proof (lead_list_flow is_block ks (proj2 (Forall_forall _ _) (fun k _ => lead_flow is_block k)) (None, false)) as L.
  assert (E2 : flat_map (flow is_block) k2 = snd (trail_toks true (flat_map (flow is_block) k1))) by (now rewrite T).
  assert (E1 : flat_map (flow is_block) k1 = snd (lead_toks (None, false) (flat_map (flow is_block) ks))) by (now rewrite L).
  rewrite E2, E1. apply trail_start. now apply lead_toks_spaced.
Qed.
