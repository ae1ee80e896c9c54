(** Output names of the command line program, and what its outputs contain. *)
From Coq Require Import List NArith Arith Bool String Lia.
From Verif Require Import Bytes BytesFacts NetUrl Cli SpecCli CliFacts CliFacts2.
Import ListNotations.
Open Scope N_scope.
Open Scope list_scope.

(** ** Names *)
Lemma split_mid sep x y : split_on sep (x ++ [sep] ++ y) = split_on sep x ++ split_on sep y.
Proof.
  induction x as [|c x IH].
  - cbn. rewrite N.eqb_refl. reflexivity.
  - cbn [app split_on]. cbn [app] in IH. destruct (c =? sep); [now rewrite IH|]. rewrite IH.
    destruct (split_on sep x) as [|p ps] eqn:E; [now destruct (split_on_ne sep x)|]. reflexivity.
Qed.
Lemma split_single sep x : ~ In sep x -> split_on sep x = [x].
Proof.
  intros H. induction x as [|c x IH]; [reflexivity|]. cbn. destruct (c =? sep) eqn:E.
  - apply N.eqb_eq in E. subst. destruct H. now left.
  - rewrite IH; [reflexivity|]. intros Hx. apply H. now right.
Qed.
Lemma cut_at_none sep s : ~ In sep s -> cut_at sep s = None.
Proof.
  induction s as [|c t IH]; intros H; [reflexivity|]. cbn. destruct (c =? sep) eqn:E.
  - apply N.eqb_eq in E. subst. destruct H. now left.
  - rewrite IH; [reflexivity|]. intros Hx. apply H. now right.
Qed.
Lemma cut_at_first sep x y : ~ In sep x -> cut_at sep (x ++ [sep] ++ y) = Some (x, y).
Proof.
  induction x as [|c t IH]; intros H; cbn; [now rewrite N.eqb_refl|]. destruct (c =? sep) eqn:E.
  - apply N.eqb_eq in E. subst. destruct H. now left.
  - cbn in IH. rewrite IH; [reflexivity|]. intros Hx. apply H. now right.
Qed.
Lemma cut_last_mid sep x y : ~ In sep y -> cut_last sep (x ++ [sep] ++ y) = Some (x, y).
Proof.
  intros H. unfold cut_last. rewrite !rev_app_distr. cbn [rev app]. rewrite <- app_assoc.
  rewrite (cut_at_first sep (rev y) (rev x)) by now rewrite <- in_rev. now rewrite !rev_involutive.
Qed.
Lemma cut_last_none sep x : ~ In sep x -> cut_last sep x = None.
Proof. intros H. unfold cut_last. rewrite cut_at_none; [reflexivity|]. now rewrite <- in_rev. Qed.

Lemma base_name_app dir name :
  slash_free name -> name <> [] -> (dir = [] \/ exists d, dir = d ++ [47]) -> base_name (dir ++ name) = name.
Proof.
  intros S N D. unfold base_name.
  assert (E : is_empty (dir ++ name) = false) by (destruct dir; [destruct name; [congruence|reflexivity]|reflexivity]).
  rewrite E.
  assert (N' : negb (is_empty name) = true) by (destruct name; [congruence|reflexivity]).
  assert (X : exists l, List.filter (fun e => negb (is_empty e)) (split_on 47 (dir ++ name)) = l ++ [name]).
  { destruct D as [->|(d & ->)].
    - exists []. cbn [app]. rewrite split_single by exact S. cbn [List.filter]. now rewrite N'.
    - rewrite <- app_assoc, split_mid, filter_app, (split_single 47 name) by exact S. cbn [List.filter]. rewrite N'. eauto. }
  destruct X as (l & ->). destruct (l ++ [name]) eqn:El; [now destruct l|]. rewrite <- El. apply last_last.
Qed.
Lemma stem_base p stem : stem_of p stem -> without_extension (base_name p) = stem.
Proof.
  intros [dir s ext S1 S2 S3 D|dir s S1 S2 N D].
  - rewrite base_name_app; [|intros H; apply in_app_iff in H; destruct H as [H|[H|H]]; [now apply S1|discriminate|now apply S2]| |exact D].
    + unfold without_extension. now rewrite cut_last_mid.
    + destruct s; discriminate.
  - rewrite base_name_app by auto. unfold without_extension. now rewrite cut_last_none.
Qed.
Lemma stem_slash_free p stem : stem_of p stem -> slash_free stem.
Proof. now intros []. Qed.

Section names.
Variable hash : bytes -> bytes.
Variable rel : path -> path -> option path.
Definition code (r : path) : bytes := firstn 10 (hash r).
Notation outputs gb := (output_names hash rel gb).
Lemma output_names_shape gb seen ps outs :
  outputs gb seen ps = Some outs ->
  Forall2 (fun p out => out = without_extension (base_name p) ++ b ".md" \/
     exists r, rel gb p = Some r /\ out = without_extension (base_name p) ++ [46] ++ code r ++ b ".md") ps outs.
Proof.
  revert seen outs. induction ps as [|p ps IH]; intros seen outs H; cbn [output_names] in H; [injection H as <-; constructor|].
  remember (if existsb (beqb (without_extension (base_name p))) seen then _ else _) as nm eqn:En in H.
  destruct nm as [x|]; [|discriminate]. destruct (outputs gb _ ps) as [xs|] eqn:Er; [|discriminate]. injection H as <-.
  constructor; [|now apply IH with (1 := Er)].
  destruct (existsb _ seen); [|injection En as ->; now left].
  destruct (rel gb p) as [r|]; [|discriminate]. injection En as ->. right. eauto.
Qed.
(** plain names are only given to stems not seen *)
Lemma output_names_plain gb seen ps outs :
  outputs gb seen ps = Some outs ->
  Forall2 (fun p out => (~ In (without_extension (base_name p)) seen /\ out = without_extension (base_name p) ++ b ".md") \/
     exists r, rel gb p = Some r /\ out = without_extension (base_name p) ++ [46] ++ code r ++ b ".md") ps outs.
Proof.
  revert seen outs. induction ps as [|p ps IH]; intros seen outs H; cbn [output_names] in H; [injection H as <-; constructor|].
  remember (if existsb (beqb (without_extension (base_name p))) seen then _ else _) as nm eqn:En in H.
  destruct nm as [x|]; [|discriminate]. destruct (outputs gb _ ps) as [xs|] eqn:Er; [|discriminate]. injection H as <-.
  constructor.
  - destruct (existsb _ seen) eqn:Ex.
    + destruct (rel gb p) as [r|]; [|discriminate]. injection En as ->. right. eauto.
    + injection En as ->. left. split; [|reflexivity]. intros Hin.
      assert (existsb (beqb (without_extension (base_name p))) seen = true); [|congruence].
      apply existsb_exists. exists (without_extension (base_name p)). split; [exact Hin|apply beqb_refl].
  - apply IH in Er. clear -Er. induction Er as [|p' o ps os H Er IH]; constructor; auto.
    destruct H as [(H & E)|H]; [left|now right]. split; [|exact E]. intros Hin. apply H. now right.
Qed.
Lemma forall2_in {A B} (R : A -> B -> Prop) l1 l2 y : Forall2 R l1 l2 -> In y l2 -> exists x, In x l1 /\ R x y.
Proof.
  induction 1; intros Hy; [destruct Hy|]. destruct Hy as [->|Hy]; [eexists; split; [now left|eassumption]|].
  destruct (IHForall2 Hy) as (z & Hz & Rz). exists z. split; [now right|exact Rz].
Qed.
Lemma suffix_len (x y u v : bytes) : x ++ u = y ++ v -> List.length u = List.length v -> x = y /\ u = v.
Proof.
  revert y. induction x as [|a x IH]; intros [|a' y] E L; cbn in E.
  - auto.
  - subst u. cbn in L. rewrite app_length in L. lia.
  - subst v. cbn in L. rewrite app_length in L. lia.
  - injection E as -> E. destruct (IH _ E L) as [-> ->]. auto.
Qed.
Lemma output_names_distinct gb ps outs :
  (forall r, (10 <= List.length (hash r))%nat) -> NoDup ps ->
  (forall p q rp rq, In p ps -> In q ps -> p <> q -> rel gb p = Some rp -> rel gb q = Some rq -> code rp <> code rq) ->
  (forall p q r, In p ps -> In q ps -> rel gb q = Some r ->
     without_extension (base_name p) <> without_extension (base_name q) ++ [46] ++ code r) ->
  outputs gb [] ps = Some outs -> NoDup outs.
Proof.
  intros H0 ND H1 H2. assert (G : forall l, incl l ps -> NoDup l -> forall seen os, outputs gb seen l = Some os -> NoDup os).
  2:{ intros H. now apply (G ps (incl_refl _) ND [] outs). }
  induction l as [|p l IH]; intros IC NDl seen os H; cbn [output_names] in H; [injection H as <-; constructor|].
  remember (if existsb (beqb (without_extension (base_name p))) seen then _ else _) as nm eqn:En in H.
  destruct nm as [x|]; [|discriminate]. destruct (outputs gb _ l) as [xs|] eqn:Er; [|discriminate]. injection H as <-.
  apply NoDup_cons_iff in NDl. destruct NDl as [Np NDl].
  constructor; [|eapply IH; [|exact NDl|exact Er]; intros y Hy; apply IC; now right].
  intros Hx. apply output_names_plain in Er. destruct (forall2_in _ _ _ _ Er Hx) as (q & Hq & Rq).
  assert (Ip : In p ps) by (apply IC; now left). assert (Iq : In q ps) by (apply IC; now right).
  assert (Npq : p <> q) by (intros ->; contradiction).
  set (bp := without_extension (base_name p)) in *. set (bq := without_extension (base_name q)) in *.
  assert (Lc : forall r r', List.length (code r ++ b ".md") = List.length (code r' ++ b ".md")).
  { intros r r'. unfold code. rewrite !app_length, !firstn_length. pose proof (H0 r). pose proof (H0 r'). lia. }
  destruct (existsb (beqb bp) seen).
  - destruct (rel gb p) as [r|] eqn:Erp; [|discriminate].
    assert (Ex : x = bp ++ [46] ++ code r ++ b ".md") by (unfold code; congruence). clear En. subst x.
    destruct Rq as [(_ & E)|(rq & Erq & E)].
    + replace (bp ++ [46] ++ code r ++ b ".md") with ((bp ++ [46] ++ code r) ++ b ".md") in E by now rewrite <- !app_assoc.
      apply app_inv_tail in E. symmetry in E. now apply (H2 q p r) in E.
    + apply suffix_len in E; [|cbn [app List.length]; f_equal; apply Lc]. destruct E as [_ E]. cbn [app] in E. injection E as E.
      apply app_inv_tail in E. now apply (H1 p q r rq) in E.
  - assert (Ex : x = bp ++ b ".md") by congruence. clear En. subst x. destruct Rq as [(Nq & E)|(rq & Erq & E)].
    + apply app_inv_tail in E. apply Nq. left. now rewrite E.
    + replace (bq ++ [46] ++ code rq ++ b ".md") with ((bq ++ [46] ++ code rq) ++ b ".md") in E by now rewrite <- !app_assoc.
      apply app_inv_tail in E. now apply (H2 p q rq) in E.
Qed.
(** the collision *)
Lemma output_names_collide gb r :
  rel gb (b "b/x.html") = Some r -> slash_free (hash r) ->
  let inputs := [b "a/x.html"; b "b/x.html"; b "c/x." ++ code r ++ b ".html"] in
  outputs gb [] inputs = Some [b "x.md"; b "x." ++ code r ++ b ".md"; b "x." ++ code r ++ b ".md"].
Proof.
  intros Hr Hs inputs. unfold inputs. cbn [output_names].
  assert (E1 : without_extension (base_name (b "a/x.html")) = b "x") by reflexivity.
  assert (E2 : without_extension (base_name (b "b/x.html")) = b "x") by reflexivity.
  assert (E3 : without_extension (base_name (b "c/x." ++ code r ++ b ".html")) = b "x." ++ code r).
  { apply stem_base. replace (b "c/x." ++ code r ++ b ".html") with (b "c/" ++ (b "x." ++ code r) ++ [46] ++ b "html")
      by (change (b "c/x.") with (b "c/" ++ b "x."); change (b ".html") with ([46] ++ b "html"); now rewrite <- !app_assoc).
    constructor.
    - intros H. apply in_app_iff in H. destruct H as [H|H]; [cbn in H; intuition discriminate|].
      apply Hs. unfold code in H. rewrite <- (firstn_skipn 10 (hash r)). apply in_app_iff. now left.
    - intros H. cbn in H. intuition discriminate.
    - intros H. cbn in H. intuition discriminate.
    - right. exists (b "c"). reflexivity. }
  rewrite E1, E2, E3, Hr.
  assert (X1 : existsb (beqb (b "x")) [b "x"] = true) by reflexivity.
  assert (X2 : existsb (beqb (b "x." ++ code r)) [b "x"; b "x"] = false) by reflexivity.
  rewrite X1, X2. cbn [existsb]. reflexivity.
Qed.
End names.

(** ** Paths below the output directory *)
Lemma fold_clean_last rooted acc name :
  slash_free name -> name <> [] -> name <> b "." -> name <> b ".." -> clean_step rooted acc name = name :: acc.
Proof.
  intros _ N1 N2 N3. unfold clean_step. destruct (is_empty name) eqn:E; [destruct name; [congruence|discriminate]|].
  destruct (beqb name (b ".")) eqn:E1; [apply beqb_eq in E1; congruence|].
  destruct (beqb name (b "..")) eqn:E2; [apply beqb_eq in E2; congruence|]. reflexivity.
Qed.
Lemma rooted_app out name : out <> [] -> has_prefix [47] (out ++ name) = has_prefix [47] out.
Proof. destruct out; [congruence|reflexivity]. Qed.
Lemma clean_elems_app out name :
  out <> [] -> slash_free name -> name <> [] -> name <> b "." -> name <> b ".." ->
  clean_elems (out ++ [47] ++ name) = clean_elems out ++ [name].
Proof.
  intros N S N1 N2 N3. unfold clean_elems. rewrite rooted_app by exact N.
  rewrite split_mid, (split_single 47 name S), fold_left_app. cbn [fold_left].
  rewrite fold_clean_last by auto. reflexivity.
Qed.
Lemma clean_elems_ne p e : In e (clean_elems p) -> e <> [] /\ slash_free e.
Proof.
  unfold clean_elems. intros H. apply in_rev in H. revert H. generalize (has_prefix [47] p). intros rt H.
  assert (G : forall l acc, (forall e, In e l -> slash_free e) -> (forall e, In e acc -> e <> [] /\ slash_free e) ->
     forall e, In e (fold_left (clean_step rt) l acc) -> e <> [] /\ slash_free e).
  { induction l as [|x l IH]; intros acc Hl Ha e' He'; [now apply Ha|]. cbn in He'. apply IH in He'; auto.
    - intros; apply Hl; now right.
    - assert (Sx : slash_free x) by (apply Hl; now left).
      intros y Hy. unfold clean_step in Hy. destruct (is_empty x) eqn:Ex; [cbn in Hy; now apply Ha|].
      assert (Nx : x <> []) by (destruct x; discriminate).
      destruct (beqb x (b ".")); [cbn in Hy; now apply Ha|]. cbn [orb] in Hy.
      destruct (beqb x (b "..")).
      + destruct acc as [|t r].
        * destruct rt; cbn in Hy; [tauto|]. destruct Hy as [<-|[]]. auto.
        * destruct (beqb t (b "..")); [|apply Ha; now right]. destruct Hy as [<-|Hy]; [auto|now apply Ha].
      + destruct Hy as [<-|Hy]; [auto|now apply Ha]. }
  apply (G (split_on 47 p) []); [|intros ? []|exact H]. intros x Hx. now apply split_nosep with (1 := Hx).
Qed.
Lemma join_below out name :
  has_suffix [47] out = true -> slash_free name -> name <> [] -> name <> b "." -> name <> b ".." ->
  join_path out name = (if beqb (clean_path out) (b ".") then [] else if beqb (clean_path out) [47] then [47] else clean_path out ++ [47]) ++ name.
Proof.
  intros Hs S N1 N2 N3. assert (No : out <> []) by (destruct out; discriminate).
  unfold join_path. destruct (is_empty out) eqn:E; [destruct out; [congruence|discriminate]|].
  destruct (is_empty name) eqn:E'; [destruct name; [congruence|discriminate]|].
  unfold clean_path at 1. rewrite rooted_app by exact No. rewrite clean_elems_app by auto.
  unfold clean_path, unsplit. set (rt := has_prefix [47] out). pose proof (clean_elems_ne out) as Hne.
  destruct (clean_elems out) as [|e es] eqn:Ee.
  { cbn [app join]. destruct rt; cbn; [reflexivity|]. destruct name; [congruence|reflexivity]. }
  assert (J : join [47] ((e :: es) ++ [name]) = join [47] (e :: es) ++ [47] ++ name) by (apply join_app; discriminate).
  rewrite J. assert (Ne : e <> [] /\ slash_free e) by (apply Hne; now left).
  assert (Jn : exists c t, join [47] (e :: es) = c :: t /\ c <> 47).
  { destruct Ne as [Ne Se]. destruct e as [|c e]; [congruence|]. destruct es; cbn [join app]; eexists c, _; (split; [reflexivity|]);
      intros ->; apply Se; now left. }
  destruct Jn as (c & t & Jn & Nc). rewrite Jn.
  assert (E1 : is_empty ((if rt then [47] else []) ++ (c :: t) ++ [47] ++ name) = false) by (destruct rt; reflexivity).
  assert (E2 : is_empty ((if rt then [47] else []) ++ c :: t) = false) by (destruct rt; reflexivity).
  rewrite E1, E2.
  assert (E3 : beqb ((if rt then [47] else []) ++ c :: t) [47] = false).
  { destruct (beqb _ [47]) eqn:X; [|reflexivity]. apply beqb_eq in X. destruct rt; cbn in X; congruence. }
  rewrite E3.
  destruct (beqb ((if rt then [47] else []) ++ c :: t) (b ".")) eqn:X.
  { (* an element . is never kept *)
    apply beqb_eq in X. destruct rt; cbn in X; [discriminate|].
    exfalso. injection X as -> ->.
    assert (Ed : (e :: es) = [b "."]).
    { destruct es as [|e2 es]; [cbn in Jn; now rewrite Jn|]. cbn [join] in Jn. destruct Ne as [Ne _].
      destruct e as [|x [|y e]]; [congruence| |discriminate]. cbn in Jn. discriminate. }
    assert (ND : forall l acc r, ~ In (b ".") acc -> ~ In (b ".") (fold_left (clean_step r) l acc)).
    { induction l as [|y l IH]; intros acc r Ha; [exact Ha|]. cbn. apply IH. unfold clean_step.
      destruct (is_empty y); [exact Ha|]. destruct (beqb y (b ".")) eqn:Ey; [exact Ha|]. cbn [orb].
      destruct (beqb y (b "..")) eqn:Ey2.
      - apply beqb_eq in Ey2. subst y. destruct acc as [|t0 r0].
        + destruct r; [auto|]. intros [H|[]]. discriminate.
        + destruct (beqb t0 (b "..")); [intros [H|H]; [discriminate|now apply Ha]|intros H; apply Ha; now right].
      - intros [H|H]; [subst; rewrite beqb_refl in Ey; discriminate|now apply Ha]. }
    apply (ND (split_on 47 out) [] (has_prefix [47] out)); [intros []|].
    apply in_rev. fold (clean_elems out). rewrite Ee, Ed. now left. }
  rewrite <- !app_assoc. reflexivity.
Qed.
