(** Where the cells of a rendered table come from (C55). *)
From Coq Require Import List NArith ZArith Bool String Lia ZifyBool ZifyNat ZifyN.
From Verif Require Import Bytes BytesFacts TextUtils RenderText Escape SpecDom SpecText TextFacts TextFacts2 RenderFacts3 Dom DomUtils Engine CommonMark Table
  RenderInv PanicFacts LetterFacts SpecTable TableFacts.
Import ListNotations.
Open Scope N_scope.
Open Scope list_scope.

(** ** Entries and places *)
Definition pl (x : entry) : place := (e_anc x, e_node x).
Lemma places_elem anc x a ks : places anc (Elem x a ks) = List.concat (map (fun k => (x :: anc, k) :: places (x :: anc) k) ks).
Proof. cbn [places]. now rewrite flat_map_concat_map. Qed.
Lemma places_doc anc ks : places anc (Doc ks) = List.concat (map (fun k => (b "#document" :: anc, k) :: places (b "#document" :: anc) k) ks).
Proof. cbn [places]. now rewrite flat_map_concat_map. Qed.
Lemma combine_snd {A B} (f : B -> A) (ks : list B) s : map (fun ik : nat * B => f (snd ik)) (combine (seq s (List.length ks)) ks) = map f ks.
Proof. revert s. induction ks as [|k ks IH]; intros s; [reflexivity|]. cbn [List.length seq combine map snd]. now rewrite IH. Qed.
Lemma descendants_places n : forall p anc, map pl (descendants p anc n) = places anc n.
Proof.
  induction n using node_induction; intros p anc; try reflexivity.
  - rewrite descendants_elem, places_elem, concat_map, map_map. f_equal. rewrite <- (combine_snd (fun k => (x :: anc, k) :: places (x :: anc) k) ks 0).
    apply map_ext_in. intros (i & k) I. apply in_combine_r in I. rewrite Forall_forall in H. cbn [map fst snd]. now rewrite H.
  - rewrite descendants_doc, places_doc, concat_map, map_map. f_equal.
    rewrite <- (combine_snd (fun k => (b "#document" :: anc, k) :: places (b "#document" :: anc) k) ks 0).
    apply map_ext_in. intros (i & k) I. apply in_combine_r in I. rewrite Forall_forall in H. cbn [map fst snd]. now rewrite H.
Qed.
Lemma below_places x : map pl (below x) = places (fst (pl x)) (snd (pl x)).
Proof. apply descendants_places. Qed.
Lemma entry_named l x : entry_is l x = is_named l (pl x).
Proof. reflexivity. Qed.
Lemma filter_map {A B} (f : A -> B) (g : B -> bool) l : filter g (map f l) = map f (filter (fun x => g (f x)) l).
Proof. induction l as [|x l IH]; [reflexivity|]. cbn [map filter]. destruct (g (f x)); cbn [map]; now rewrite IH. Qed.
Lemma cell_entries_places row : map pl (cell_entries row) = cells_below (pl row).
Proof. unfold cells_below. rewrite <- below_places, filter_map. reflexivity. Qed.
Lemma find_map {A B} (f : A -> B) (g : B -> bool) l : find g (map f l) = option_map f (find (fun x => g (f x)) l).
Proof. induction l as [|x l IH]; [reflexivity|]. cbn [map find]. destruct (g (f x)); auto. Qed.

(** ** Paths are unique *)
Definition kid_entries (p : list nat) (nm : bytes) (anc : list bytes) (s : nat) (ks : list node) : list entry :=
  List.concat (map (fun ik => {| e_path := fst ik :: p; e_anc := nm :: anc; e_node := snd ik |} :: descendants (fst ik :: p) (nm :: anc) (snd ik))
    (combine (seq s (List.length ks)) ks)).
Lemma descendants_kids n p anc : descendants p anc n = kid_entries p (node_name n) anc 0 (kids n).
Proof. destruct n; try reflexivity; unfold kid_entries; [apply descendants_elem|apply descendants_doc]. Qed.
Lemma kid_entries_cons p nm anc s k ks : kid_entries p nm anc s (k :: ks)
  = ({| e_path := s :: p; e_anc := nm :: anc; e_node := k |} :: descendants (s :: p) (nm :: anc) k) ++ kid_entries p nm anc (S s) ks.
Proof. reflexivity. Qed.
Lemma path_below n : forall p anc x, In x (descendants p anc n) -> exists q i, e_path x = q ++ i :: p.
Proof.
  assert (K : forall ks, Forall (fun n => forall p anc x, In x (descendants p anc n) -> exists q i, e_path x = q ++ i :: p) ks ->
    forall p nm anc s x, In x (kid_entries p nm anc s ks) -> exists q i, e_path x = q ++ i :: p /\ (s <= i)%nat).
  { induction 1 as [|k ks Hk F IH]; intros p nm anc s x I; [destruct I|]. rewrite kid_entries_cons in I. apply in_app_iff in I as [[<-|I]|I].
    - now exists [], s.
    - apply Hk in I as (q & i & ->). exists (q ++ [i]), s. split; [now rewrite <- app_assoc|lia].
    - apply IH in I as (q & i & -> & L). exists q, i. split; auto. lia. }
  induction n using node_induction; intros p anc y I; try destruct I; rewrite descendants_kids in I; cbn [kids] in I; apply (K _ H) in I as (q & i & E & _); eauto.
Qed.
Lemma kid_path ks : forall p nm anc s x, In x (kid_entries p nm anc s ks) -> exists q i, e_path x = q ++ i :: p /\ (s <= i)%nat.
Proof.
  induction ks as [|k ks IH]; intros p nm anc s x I; [destruct I|]. rewrite kid_entries_cons in I. apply in_app_iff in I as [[<-|I]|I].
  - now exists [], s.
  - apply path_below in I as (q & i & ->). exists (q ++ [i]), s. split; [now rewrite <- app_assoc|lia].
  - apply IH in I as (q & i & -> & L). exists q, i. split; auto. lia.
Qed.
Lemma app_same_tail {A} (q1 q2 : list A) i j p : q1 ++ i :: p = q2 ++ j :: p -> q1 = q2 /\ i = j.
Proof.
  intros E. change (i :: p) with ([i] ++ p) in E. change (j :: p) with ([j] ++ p) in E. rewrite !app_assoc in E. apply app_inv_tail in E.
  apply app_inj_tail in E. exact E.
Qed.
Lemma nodup_app {A} (l m : list A) : NoDup l -> NoDup m -> (forall x, In x l -> In x m -> False) -> NoDup (l ++ m).
Proof.
  intros H K D. induction H as [|x l N H IH]; [exact K|]. cbn [app]. constructor.
  - rewrite in_app_iff. intros [I|I]; [auto|]. apply (D x); [now left|easy].
  - apply IH. intros y I J. apply (D y); [now right|easy].
Qed.
Lemma paths_unique n : forall p anc, NoDup (map e_path (descendants p anc n)).
Proof.
  assert (K : forall ks, Forall (fun n => forall p anc, NoDup (map e_path (descendants p anc n))) ks ->
    forall p nm anc s, NoDup (map e_path (kid_entries p nm anc s ks))).
  { induction 1 as [|k ks Hk F IH]; intros p nm anc s; [constructor|]. rewrite kid_entries_cons, map_app. apply nodup_app; auto.
    - cbn [map]. constructor; auto. intros I. apply in_map_iff in I as (x & E & I). cbn [e_path] in E. apply path_below in I as (q & i & E2).
      rewrite E2 in E. apply (f_equal (@List.length nat)) in E. rewrite app_length in E. cbn [List.length] in E. lia.
    - intros z I J. apply in_map_iff in I as (x & <- & I). apply in_map_iff in J as (y & E & J). apply kid_path in J as (q & i & Ey & L).
      assert (X : exists q', e_path x = q' ++ s :: p).
      { destruct I as [<-|I]; [now exists []|]. apply path_below in I as (q' & j & ->). exists (q' ++ [j]). now rewrite <- app_assoc. }
      destruct X as (q' & X). rewrite X, Ey in E. apply app_same_tail in E as [_ E]. lia. }
  induction n using node_induction; intros p anc; try (constructor; fail); rewrite descendants_kids; apply K; auto.
Qed.
Lemma all_paths_unique t : NoDup (map e_path (t :: below t)).
Proof.
  cbn [map]. constructor; [|apply paths_unique]. intros I. apply in_map_iff in I as (x & E & I). apply path_below in I as (q & i & E2).
  rewrite E2 in E. apply (f_equal (@List.length nat)) in E. rewrite app_length in E. cbn [List.length] in E. lia.
Qed.
Lemma path_inj t x y : In x (t :: below t) -> In y (t :: below t) -> e_path x = e_path y -> x = y.
Proof.
  pose proof (all_paths_unique t) as N. generalize dependent (t :: below t). intros l N. induction l as [|z l IH]; intros I J E; [destruct I|].
  cbn [map] in N. inversion N as [|? ? Nz N']; subst. destruct I as [->|I], J as [->|J]; auto.
  - elim Nz. rewrite E. now apply in_map.
  - elim Nz. rewrite <- E. now apply in_map.
Qed.
Lemma cons_split {A} (a : list A) x v c u : a ++ c = u ++ x :: v ->
  (exists v', a = u ++ x :: v' /\ v = v' ++ c) \/ (exists u', u = a ++ u' /\ c = u' ++ x :: v).
Proof.
  intros E. apply app_split in E as [(k & -> & E)|(k & -> & ->)]; [|right; now exists k]. destruct k as [|y k].
  - right. exists []. cbn [app] in *. rewrite !app_nil_r. auto.
  - left. injection E as <- ->. now exists k.
Qed.
Definition has_parent (t : entry) (u : list entry) (x : entry) : Prop :=
  exists y, In y (t :: u) /\ tl (e_path x) = e_path y /\ e_anc x = node_name (e_node y) :: e_anc y /\ In (e_node x) (kids (e_node y)).
Lemma kid_parent t ls : Forall (fun n => forall p anc u x v, descendants p anc n = u ++ x :: v -> has_parent {| e_path := p; e_anc := anc; e_node := n |} u x) ls ->
  incl ls (kids (e_node t)) -> forall s u x v, kid_entries (e_path t) (node_name (e_node t)) (e_anc t) s ls = u ++ x :: v -> has_parent t u x.
Proof.
  induction 1 as [|k ls Hk F IH]; intros Inc s u x v E; [destruct u; discriminate|]. rewrite kid_entries_cons in E. apply cons_split in E as [(v' & E & _)|(u' & -> & E)].
  - destruct u as [|w u].
    + injection E as <- _. exists t. split; [now left|]. cbn [e_path e_anc e_node tl]. split; [reflexivity|]. split; [reflexivity|]. apply Inc. now left.
    + injection E as <- E. apply Hk in E as (y & Iy & E1 & E2 & E3). exists y. split; [right; exact Iy|auto].
  - apply IH in E as (y & Iy & E1 & E2 & E3); [|intros z Iz; apply Inc; now right]. exists y. split; [|auto]. destruct Iy as [->|Iy]; [now left|right].
    apply in_app_iff. now right.
Qed.
Lemma parent n : forall p anc u x v, descendants p anc n = u ++ x :: v -> has_parent {| e_path := p; e_anc := anc; e_node := n |} u x.
Proof.
  induction n using node_induction; intros p anc u y v E; try (destruct u; discriminate); rewrite descendants_kids in E; eapply kid_parent; eauto; apply incl_refl.
Qed.
Lemma below_below n : forall p anc x y, In x (descendants p anc n) -> In y (below x) -> In y (descendants p anc n).
Proof.
  unfold below. assert (K : forall ks, Forall (fun n => forall p anc x y, In x (descendants p anc n) -> In y (descendants (e_path x) (e_anc x) (e_node x)) -> In y (descendants p anc n)) ks ->
    forall p nm anc s x y, In x (kid_entries p nm anc s ks) -> In y (descendants (e_path x) (e_anc x) (e_node x)) -> In y (kid_entries p nm anc s ks)).
  { induction 1 as [|k ks Hk F IH]; intros p nm anc s x y I J; [destruct I|]. rewrite kid_entries_cons in *. apply in_app_iff. apply in_app_iff in I as [[<-|I]|I].
    - left. now right.
    - left. right. eapply Hk; eauto.
    - right. eapply IH; eauto. }
  induction n using node_induction; intros p anc y z I J; try (destruct I; fail); rewrite (descendants_kids _ p) in *; exact (K ks H _ _ _ _ _ _ I J).
Qed.

(** ** The header and the other rows *)
Lemma find_split {A} (f : A -> bool) l x : find f l = Some x -> exists u v, l = u ++ x :: v /\ Forall (fun y => f y = false) u /\ f x = true.
Proof.
  induction l as [|y l IH]; [discriminate|]. cbn [find]. destruct (f y) eqn:E; intros H.
  - injection H as ->. exists [], l. auto.
  - destruct (IH H) as (u & v & -> & F & T). exists (y :: u), v. auto.
Qed.
Lemma find_none_all {A} (f : A -> bool) l : find f l = None -> Forall (fun y => f y = false) l.
Proof. intros H. apply Forall_forall. intros x I. eapply find_none; eauto. Qed.
Lemma thead_row_eq t : thead_row (pl t) = option_map pl (match find (entry_is [b "thead"]) (below t) with
   | Some thead => find (entry_is [b "tr"]) (below thead) | None => None end).
Proof.
  unfold thead_row. rewrite <- below_places, find_map. change (fun x => is_named [b "thead"] (pl x)) with (entry_is [b "thead"]).
  destruct (find (entry_is [b "thead"]) (below t)) as [h|]; [|reflexivity]. cbn [option_map]. rewrite <- below_places, find_map. reflexivity.
Qed.
Lemma same_path_iff p q : same_path p q = true <-> p = q.
Proof. unfold same_path. destruct (list_eq_dec _ _ _); split; intros; congruence. Qed.
Lemma header_cases t : match header_row t with
  | Some h => In h (t :: below t) /\ header_of (pl t) (pl h)
  | None => no_header (pl t)
  end.
Proof.
  unfold header_row. cbv zeta.
  set (by_th := match find (entry_is [b "th"]) (below t) with None => None | Some th => _ end).
  pose proof (thead_row_eq t) as T.
  assert (B : thead_row (pl t) = None -> match by_th with Some h => In h (t :: below t) /\ header_of (pl t) (pl h) | None => no_header (pl t) end).
  { intros N. unfold by_th. destruct (find (entry_is [b "th"]) (below t)) as [th|] eqn:E.
    - apply find_split in E as (u & v & E & Fu & Tu). assert (I : In th (below t)) by (rewrite E, in_app_iff; right; now left).
      destruct (parent _ _ _ _ _ _ E) as (y & Iy & E1 & E2 & E3).
      assert (Et : {| e_path := e_path t; e_anc := e_anc t; e_node := e_node t |} = t) by now destruct t. rewrite Et in Iy. clear Et.
      assert (Jy : In y (t :: below t)) by (destruct Iy as [<-|Iy]; [now left|right; rewrite E, in_app_iff; now left]).
      destruct (find (fun x => same_path (e_path x) (tl (e_path th))) (t :: below t)) as [h|] eqn:Eh.
      + apply find_some in Eh as [Ih Ph]. apply same_path_iff in Ph. rewrite E1 in Ph. pose proof (path_inj t h y Ih Jy Ph) as ->. split; auto. right. split; auto.
        exists (map pl u), (pl th), (map pl v). split; [|split; [|split; [|split; [|split]]]]; auto.
        * rewrite <- below_places, E, map_app. reflexivity.
        * apply Forall_forall. intros z Iz. apply in_map_iff in Iz as (w & <- & Iw). rewrite Forall_forall in Fu. now apply Fu.
        * destruct Iy as [<-|Iy]; [now left|right; now apply in_map].
      + exfalso. apply find_none with (x := y) in Eh; auto. rewrite E1 in Eh. assert (same_path (e_path y) (e_path y) = true) by now apply same_path_iff. congruence.
    - apply find_none_all in E. split; auto. rewrite <- below_places. apply Forall_forall. intros z Iz. apply in_map_iff in Iz as (w & <- & Iw). rewrite Forall_forall in E. now apply E. }
  destruct (find (entry_is [b "thead"]) (below t)) as [h|] eqn:Eh; [|apply B; exact T].
  destruct (find (entry_is [b "tr"]) (below h)) as [r|] eqn:Er; [|apply B; exact T]. cbn [option_map] in T.
  split; [|now left]. right. apply find_in in Eh. apply find_in in Er. unfold below at 1. eapply below_below; eauto.
Qed.
Lemma filter_split {A} (f g : A -> bool) l : (forall x, In x l -> f x = true -> g x = false) -> filter (fun x => f x && negb (g x)) l = filter f l.
Proof.
  intros H. induction l as [|x l IH]; [reflexivity|]. cbn [filter]. rewrite IH by (intros; apply H; auto; now right).
  destruct (f x) eqn:E; [|reflexivity]. rewrite (H x); auto. now left.
Qed.
Lemma rows_order t : node_name (e_node t) = b "table" ->
  let header := header_row t in let normal := normal_rows t header in
  shown_order (pl t) (map (map pl) ((match header with Some h => cell_entries h | None => [] end) :: map cell_entries normal)).
Proof.
  intros Nt. cbv zeta. pose proof (header_cases t) as H. unfold normal_rows.
  assert (Ct : forall l, map (map pl) (map cell_entries l) = map cells_below (map pl l)).
  { intros l. rewrite !map_map. apply map_ext. apply cell_entries_places. }
  assert (Rt : rows_below (pl t) = map pl (filter (entry_is [b "tr"]) (below t))).
  { unfold rows_below. rewrite <- below_places, filter_map. reflexivity. }
  assert (Dt : entry_is [b "tr"] t = false) by (unfold entry_is; rewrite Nt; reflexivity).
  destruct (header_row t) as [h|].
  - destruct H as [Ih Hh]. left. exists (pl h). split; auto. cbn [filter]. rewrite Dt. cbn [andb].
    destruct (entry_is [b "tr"] h) eqn:Eh.
    + left. destruct Ih as [->|Ih]; [congruence|]. apply in_split in Ih as (u & v & E).
      assert (Hu : forall x, In x u \/ In x v -> same_path (e_path x) (e_path h) = false).
      { intros x Ix. destruct (same_path (e_path x) (e_path h)) eqn:S; auto. exfalso. apply same_path_iff in S.
        pose proof (paths_unique (e_node t) (e_path t) (e_anc t)) as N. fold (below t) in N. rewrite E, map_app in N. cbn [map] in N. apply NoDup_remove_2 in N.
        apply N. rewrite <- S. rewrite in_app_iff. destruct Ix; [left|right]; now apply in_map. }
      exists (map pl (filter (entry_is [b "tr"]) u)), (map pl (filter (entry_is [b "tr"]) v)). split.
      * rewrite Rt, E, filter_app. cbn [filter]. rewrite Eh, map_app. reflexivity.
      * rewrite E, filter_app. cbn [filter]. rewrite Eh. assert (S : same_path (e_path h) (e_path h) = true) by now apply same_path_iff. rewrite S. cbn [negb andb].
        rewrite !filter_split; [|intros; apply Hu; auto..]. cbn [map]. rewrite cell_entries_places. f_equal. rewrite Ct, map_app. reflexivity.
    + right. split; auto. rewrite filter_split.
      * cbn [map]. rewrite cell_entries_places. f_equal. now rewrite Ct, Rt.
      * intros x Ix Tx. destruct (same_path (e_path x) (e_path h)) eqn:S; auto. apply same_path_iff in S.
        assert (x = h) by (apply (path_inj t); auto; now right). subst x. congruence.
  - right. split; auto. cbn [map]. f_equal. cbn [filter]. rewrite Dt. cbn [andb]. rewrite (filter_split _ (fun _ => false)) by auto. now rewrite Ct, Rt.
Qed.
