(** The blocks of a page in the converted text (C64). *)
From Coq Require Import List NArith ZArith Bool String Lia ZifyBool ZifyNat ZifyN.
From Verif Require Import Bytes BytesFacts TextUtils TextFacts TextFacts2 RenderText RenderFacts RenderFacts2 RenderFacts4 RenderFacts5 Escape SpecEscape
  EscapeFacts EscapeFacts2 EscapeFacts3 EscapeFacts4 EscapeFacts5 EscapeFacts6 SpecText SpecText2
  Dom DomUtils SpecDom Engine CommonMark SpecEngine EngineFacts SpecPipeline PipelineFacts SpecPlain PanicFacts PlainFacts2 PlainFacts3 PlainFacts4 SpecBlocks BlockFacts0 BlockFacts2 BlockFacts3 BlockFacts5.
Import ListNotations.
Open Scope N_scope.
Open Scope list_scope.

(** ** Line ends of code are put back *)
Definition unmarked (x : bytes) : Prop := post_newline x = x.
Lemma post_nl2 x y : post_newline (x ++ 10 :: y) = post_newline x ++ 10 :: post_newline y.
Proof. exact (post_newline_sep x y). Qed.
Lemma ascii_unmarked x : (forall c, In c x -> c < 128) -> unmarked x.
Proof. intros H. apply post_newline_id. intros (p & q & ->). assert (Q : 239 < 128); [|lia]. apply H. rewrite !in_app_iff. right. left. now left. Qed.
Lemma infix_nl p x y : p <> [] -> ~ In 10 p -> infix p (x ++ 10 :: y) -> infix p x \/ infix p y.
Proof.
  intros Np N (u & v & E). destruct (app_eq_app _ _ _ _ E) as (z & [[E1 E2]|[E1 E2]]).
  - destruct (app_eq_app _ _ _ _ E2) as (z2 & [[E3 E4]|[E3 E4]]).
    + destruct z2 as [|d z2]; [left; rewrite app_nil_r in E3; subst; exists u, []; now rewrite app_nil_r|]. injection E4 as <- E4. elim N. rewrite E3, in_app_iff. right. now left.
    + left. subst. exists u, z2. reflexivity.
  - destruct z as [|d z].
    + destruct p as [|d p]; [easy|]. injection E2 as <- _. elim N. now left.
    + injection E2 as <- E2. right. exists z, v. exact E2.
Qed.
Definition clean (x : bytes) : Prop := ~ infix marker_nl x.
Lemma clean_nl x y : clean x -> clean y -> clean (x ++ 10 :: y).
Proof. intros X Y I. apply infix_nl in I as [I|I]; auto; [discriminate|vm_compute; intuition discriminate]. Qed.
Lemma clean_nil : clean [].
Proof. intros (x & y & E). destruct x; discriminate. Qed.
Lemma clean_parts x y : clean (x ++ y) -> clean x /\ clean y.
Proof. intros C. split; intros (u & v & ->); apply C; [exists u, (v ++ y); now rewrite <- !app_assoc|exists (x ++ u), v; now rewrite <- !app_assoc]. Qed.
Lemma clean_join ls : Forall clean ls -> clean (join [10] ls).
Proof.
  induction 1 as [|l r H F IH]; [apply clean_nil|]. destruct r as [|m r]; [cbn; now rewrite ?app_nil_r|]. change (join [10] (l :: m :: r)) with (l ++ 10 :: join [10] (m :: r)). now apply clean_nl.
Qed.
Lemma clean_lines w : clean w -> Forall clean (split_on 10 w).
Proof. intros C. apply Forall_forall. intros m I (u & v & ->). destruct (split_infix _ _ _ I) as (x & y & E). apply C. exists (x ++ u), (v ++ y). rewrite E, <- !app_assoc. reflexivity. Qed.
Lemma clean_post x : clean x -> unmarked x.
Proof. intros C. now apply post_newline_id. Qed.
Lemma prefix_ascii d num p : prefix_ok d num p -> forall c, In c p -> 32 <= c < 128.
Proof.
  unfold prefix_ok. destruct num as [n|].
  - intros (_ & ds & -> & _ & _ & Fd) c. rewrite in_app_iff. intros [J|J]; [|cbn in J; lia]. rewrite forallb_forall in Fd. apply Fd in J. unfold is_digit, in_range in J. lia.
  - intros (-> & Hd) c J. cbn in J. lia.
Qed.
Lemma good_clean {TT} (decode : bytes -> TT) hr : (forall o bs, good decode hr o bs -> clean o) /\ (forall al os B, goods decode hr al os B -> clean (join [10; 10] os)) /\
  (forall d num ls Bs, good_items decode hr d num ls Bs -> Forall clean ls).
Proof.
  assert (One : forall d num p fs h t, prefix_ok d num p -> clean (join [10; 10] fs) -> split_on 10 (join [10; 10] fs) = h :: t -> Forall clean ((p ++ h) :: map (app (repeat 32 (List.length p))) t)).
  { intros d num p fs h t P C E. apply clean_lines in C. rewrite E in C. inversion C as [|? ? C1 C2]; subst. constructor.
    - apply ascii_before; auto. intros c J. apply (prefix_ascii _ _ _ P) in J. lia.
    - apply Forall_map. eapply Forall_impl; [|exact C2]. intros m M. apply ascii_before; auto. intros c J. apply repeat_spec in J. lia. }
  apply good_all.
  - intros o v (_ & _ & _ & _ & M & _). exact M.
  - intros k o v K (_ & _ & _ & _ & M & _). change (32 :: o) with ([32] ++ o). rewrite app_assoc. apply ascii_before; auto. intros c. rewrite in_app_iff. intros [J|[<-|[]]]; [apply repeat_spec in J; lia|reflexivity].
  - intros k n o v K L (_ & _ & _ & _ & M & _). apply clean_nl; auto. apply ascii_no_mark. intros c J. apply repeat_spec in J. destruct (Nat.eqb k 1); lia.
  - intros R. apply ascii_no_mark. intros c J. destruct (rule_chars hr R) as (A & _). apply A in J. lia.
  - intros f i c F I M. destruct (fence_of f c F) as (n & -> & _). rewrite app_assoc. apply clean_nl; [|apply clean_nl; auto].
    + apply ascii_no_mark. intros j. rewrite in_app_iff. intros [J|J]; [apply repeat_spec in J; destruct F; lia|]. rewrite forallb_forall in I. apply I in J. unfold letter_or_digit, in_range in J. lia.
    + apply ascii_no_mark. intros j J. apply repeat_spec in J. destruct F; lia.
  - apply ascii_no_mark. apply Forall_forall. repeat constructor.
  - intros d num ls Bs _ IH. now apply clean_join.
  - intros al. apply clean_nil.
  - intros al o bs os B G C _ _ _ IH. destruct os as [|o' os]; [cbn; now rewrite ?app_nil_r|]. change (join [10; 10] (o :: o' :: os)) with (o ++ 10 :: [] ++ 10 :: join [10; 10] (o' :: os)).
    apply clean_nl; auto. apply clean_nl; auto. apply clean_nil.
  - intros d num p fs B h t P _ IH _ E _. eauto.
  - intros d num p fs B h t num2 ls Bs P _ IH _ E _ _ _ IH2. apply Forall_app. eauto.
Qed.
Lemma good_posted {TT} (decode : bytes -> TT) hr o bs : good decode hr o bs -> unmarked o.
Proof. intros G. apply clean_post. now apply (proj1 (good_clean decode hr)) in G. Qed.
Lemma join_posted {TT} (decode : bytes -> TT) hr al fs B : goods decode hr al fs B -> unmarked (join [10; 10] fs).
Proof. intros G. apply clean_post. now apply (proj1 (proj2 (good_clean decode hr))) in G. Qed.

(** ** Un-escaping *)
Section unescape.
Context {TT : Type}.
Notation block := (gblock TT).
Variable decode : bytes -> TT.
Variable para atx : bytes -> TT -> Prop.
Hypothesis Hsh : shaped_texts para atx.
Variable ds : list detector.
Hypothesis Hex : explained decode para atx ds.
Variable S0 : bytes.
Notation DD := (the_ann ds S0).
Variable hr : bytes.
Definition mid (o : bytes) (bs : list block) : Prop :=
  good decode hr (post_newline o) bs /\ neat (split_on 10 o) /\ spaces_line (hd [] (split_on 10 o)) = false /\ closed (last (split_on 10 o) []).
Lemma map_raw (w : bytes) : map fst (map (fun c : N => (c, Raw)) w) = w.
Proof. rewrite map_map. apply map_id. Qed.
Lemma char_line c n : c <> 32 -> (1 <= n)%nat -> spaces_line (repeat c n) = false.
Proof. intros C L. destruct n; [lia|]. unfold spaces_line. cbn [repeat forallb]. now replace (32 =? c) with false by lia. Qed.
Lemma first_line c u : c <> 32 -> spaces_line (c :: u) = false.
Proof. intros C. unfold spaces_line. cbn [forallb]. now replace (32 =? c) with false by lia. Qed.
Lemma piece_mid w bl A D1 Z : seg decode para atx hr w bl -> explains w D1 -> DD = A ++ D1 ++ Z -> line_start A -> ends (map fst Z) -> mid (map fst D1) bl.
Proof.
  intros Sg X E La Ez. unfold mid. pose proof (seg_tidy decode para atx Hsh hr _ _ Sg) as Td.
  assert (Rw : forall z : bytes, ~ In 7 z -> forall D, explains z D -> map fst D = z) by (intros z N D XD; apply explains_raw in XD; auto; subst; apply map_raw).
  assert (Tw : ~ In 7 w -> good decode hr (post_newline w) bl -> good decode hr (post_newline (map fst D1)) bl /\ neat (split_on 10 (map fst D1)) /\ spaces_line (hd [] (split_on 10 (map fst D1))) = false /\ closed (last (split_on 10 (map fst D1)) [])).
  { intros N7 G. rewrite (Rw _ N7 _ X). split; auto. pose proof Td as (_ & _ & T1 & T2). split; auto. split; auto. now apply tidy_first. }
  destruct Sg as [w v T|k w' v K T|k n w v K L T|R|f i d F I R| |w num Bs _ N7 G]; auto.
  - destruct (para_piece _ _ _ _ Hex S0 w v A D1 Z T X E La Ez) as [G Q].
    pose proof G as (N10 & (c & u & Eo & C1 & C2) & _ & _ & U & _). rewrite post_newline_id by auto. split; [now constructor|]. rewrite single_line by auto. cbn [hd last].
    split; [constructor|]. split; [rewrite Eo; now apply first_line|]. split; auto. rewrite Eo. discriminate.
  - clear Tw. change (32 :: w') with ([32] ++ w') in X. rewrite app_assoc in X. assert (N7 : ~ In 7 (repeat 35 k ++ [32])).
    { rewrite in_app_iff. intros [J|J]; [apply repeat_spec in J; discriminate|cbn in J; intuition discriminate]. }
    apply (explains_app _ _ (le_n _)) in X as (Da & Db & -> & Xa & Xb); [|now apply no7_last].
    pose proof (explains_raw _ N7 _ Xa) as Ea. rewrite map_app, (Rw _ N7 _ Xa).
    assert (G : head_line decode (map fst Db) v /\ is_space_rune (fst (decode_last_rune (map fst Db))) = false).
    { apply (atx_piece _ _ _ _ Hex S0 w' v (A ++ Da) Db Z); auto; [rewrite E, <- !app_assoc; reflexivity|]. right. rewrite Ea, map_app. cbn [map]. eexists _, _. rewrite app_assoc. reflexivity. }
    destruct G as [G Q].
    rewrite <- app_assoc. cbn [app]. assert (Gd : good decode hr (repeat 35 k ++ 32 :: map fst Db) [Heading k v]) by now constructor. pose proof (good_posted _ _ _ _ Gd) as U. unfold unmarked in U. rewrite U. split; auto.
    pose proof G as (N10 & (c & u & Eo & _) & _). assert (N10' : ~ In 10 (repeat 35 k ++ 32 :: map fst Db)) by (rewrite in_app_iff; intros [J|[J|J]]; auto; [apply repeat_spec in J|]; discriminate).
    rewrite single_line by auto. cbn [hd last]. split; [constructor|]. split; [destruct k; [lia|now apply first_line]|]. split; [destruct k; [lia|discriminate]|]. split; [apply decode_last_ascii; auto; [reflexivity|rewrite Eo; discriminate]|].
    now apply (proj1 (good_clean decode hr)) in Gd.
  - clear Tw. set (q := if Nat.eqb k 1 then 61 else 45) in *. assert (Hq : q = 61 \/ q = 45) by (unfold q; destruct (Nat.eqb k 1); auto). assert (Eq : q = if Nat.eqb k 1 then 61 else 45) by reflexivity. clearbody q.
    change (10 :: repeat q n) with ([10] ++ repeat q n) in X.
    assert (N7 : ~ In 7 ([10] ++ repeat q n)).
    { rewrite in_app_iff. intros [J|J]; [cbn in J; intuition discriminate|apply repeat_spec in J; lia]. }
    apply (explains_app _ _ (le_n _)) in X as (Da & Db & -> & Xa & Xb); [|exact (proj2 (proj2 (proj2 (para_shape _ _ Hsh _ _ T))))].
    rewrite map_app, (Rw _ N7 _ Xb). pose proof (explains_raw _ N7 _ Xb) as Eb.
    assert (G : plain_line decode (map fst Da) v).
    { refine (proj1 (para_piece _ _ _ _ Hex S0 w v A Da (Db ++ Z) T Xa _ La _)); [rewrite E, <- !app_assoc; reflexivity|]. right. rewrite map_app, (Rw _ N7 _ Xb). cbn [app]. eauto. }
    cbn [app]. assert (Gd : good decode hr (map fst Da ++ 10 :: repeat q n) [Heading k v]) by (rewrite Eq; apply good_setext; auto). pose proof (good_posted _ _ _ _ Gd) as U. unfold unmarked in U. rewrite U. split; auto.
    pose proof G as (N10 & (c & u & Eo & C1 & C2) & _). assert (Nr : ~ In 10 (repeat q n)) by (intros J; apply repeat_spec in J; lia). rewrite split_nl, !single_line by auto. cbn [app hd last].
    assert (Qs : spaces_line (repeat q n) = false) by (apply char_line; lia). split; [constructor; [congruence|constructor]|]. split; [rewrite Eo; now apply first_line|].
    split; [destruct n; [lia|discriminate]|]. split; [rewrite repeat_end by lia; apply last_ascii; lia|]. apply ascii_no_mark. intros y J. apply repeat_spec in J. lia.
  - apply Tw; [intros J; destruct (rule_chars hr R) as (A0 & _); apply A0 in J; lia|].
    assert (Gd : good decode hr hr [Rule]) by now constructor. pose proof (good_posted _ _ _ _ Gd) as U. unfold unmarked in U. now rewrite U.
  - destruct (readable_no7 f i d F I R) as (Nc & N7). apply Tw; auto. set (c := without_final_newline d) in *.
    assert (Gd : good decode hr (calculate_code_fence f c ++ i ++ 10 :: c ++ 10 :: calculate_code_fence f c) [Code i c]) by now constructor.
    assert (U2 : post_newline (calculate_code_fence f c ++ i ++ 10 :: code_lines c ++ 10 :: calculate_code_fence f c) = calculate_code_fence f c ++ i ++ 10 :: c ++ 10 :: calculate_code_fence f c); [|now rewrite U2].
    destruct (fence_of f c F) as (n & Ef & _). rewrite Ef in *. 
    assert (U3 : unmarked (repeat f n)) by (apply ascii_unmarked; intros j J; apply repeat_spec in J; destruct F; lia).
    assert (U1 : unmarked (repeat f n ++ i)).
    { apply ascii_unmarked. intros j. rewrite in_app_iff. intros [J|J]; [apply repeat_spec in J; destruct F; lia|]. rewrite forallb_forall in I. apply I in J. unfold letter_or_digit, in_range in J. lia. }
    unfold unmarked in *. rewrite (app_assoc (repeat f n) i), post_nl2, post_nl2, U1, U3. unfold code_lines, post_newline. rewrite marker_back by auto. now rewrite <- app_assoc.
  - apply Tw; [vm_compute; intuition discriminate|]. assert (Ep : post_newline end_comment_line = end_comment_line) by (vm_compute; reflexivity). rewrite Ep. constructor.
Qed.
Lemma unescape_pieces al ws B : pieces (seg decode para atx hr) al ws B -> forall A D1, explains (join [10; 10] ws) D1 -> DD = A ++ D1 -> line_start A ->
  exists os, map fst D1 = join [10; 10] os /\ pieces mid al os B /\ (os = [] -> ws = []).
Proof.
  induction 1 as [al|al w bs ws B Sg H1 H2 F IH]; intros A D1 X E La.
  - cbn in X. inversion X; subst. exists []. split; [reflexivity|split; [constructor|auto]].
  - destruct ws as [|w2 ws].
    + inversion F; subst. cbn in X. exists [map fst D1]. split; [reflexivity|]. split; [|discriminate]. constructor; auto; [|constructor]. eapply (piece_mid w bs A D1 []); eauto; [now rewrite app_nil_r|now left].
    + change (join [10; 10] (w :: w2 :: ws)) with (w ++ [10; 10] ++ join [10; 10] (w2 :: ws)) in X.
      apply (explains_app _ _ (le_n _)) in X as (Da & Db & -> & Xa & Xb); [|exact (seg_last7 decode para atx Hsh hr _ _ Sg)].
      apply (explains_app _ _ (le_n _)) in Xb as (Dn & Dr & -> & Xn & Xr); [|reflexivity]. apply explains_raw in Xn; [|cbn; intuition discriminate]. subst Dn. cbn [map] in E.
      destruct (IH (A ++ Da ++ [(10, Raw); (10, Raw)]) Dr Xr) as (os & Eo & Fo & No).
      * rewrite E, <- !app_assoc. reflexivity.
      * right. exists (A ++ Da ++ [(10, Raw)]). rewrite <- !app_assoc. reflexivity.
      * exists (map fst Da :: os). split; [|split; [|discriminate]; constructor; auto; eapply (piece_mid w bs A Da); eauto; right; cbn; eauto].
        rewrite !map_app, Eo. destruct os as [|o os]; [discriminate (No eq_refl)|]. reflexivity.
Qed.
Lemma mids_joined al os B : pieces mid al os B -> os <> [] -> exists fs, post_newline (join [10; 10] os) = join [10; 10] fs /\ goods decode hr al fs B /\ fs <> [] /\
  neat (split_on 10 (join [10; 10] os)) /\ spaces_line (hd [] (split_on 10 (join [10; 10] os))) = false /\ closed (last (split_on 10 (join [10; 10] os)) []).
Proof.
  induction 1 as [al|al o bs os B (G & M1 & M2 & M3) H1 H2 F IH]; [easy|]. intros _. destruct os as [|o2 os].
  - inversion F; subst. exists [post_newline o]. cbn [join]. rewrite ?app_nil_r. split; [reflexivity|]. split; [rewrite <- (app_nil_r bs) at 1; constructor; auto; constructor|]. split; [discriminate|auto].
  - destruct (IH ltac:(discriminate)) as (fs & E & Gs & Nf & I1 & I2 & I3). exists (post_newline o :: fs). change (join [10; 10] (o :: o2 :: os)) with (o ++ 10 :: [] ++ 10 :: join [10; 10] (o2 :: os)).
    rewrite post_nl2. rewrite (post_nl2 []), E. destruct fs as [|f fs]; [easy|]. split; [reflexivity|]. split; [now constructor|]. split; [discriminate|].
    rewrite split_nl, (split_nl []). change (split_on 10 []) with [@nil N]. split; [|split].
    + apply neat_app; auto; [|intros _; now apply closed_solid]. apply neat_app; [constructor|auto|congruence].
    + pose proof (split_on_ne 10 o) as Ne. destruct (split_on 10 o); [easy|]. exact M2.
    + set (J := split_on 10 (join [10; 10] (o2 :: os))) in *. assert (NJ : J <> []) by apply split_on_ne. clearbody J. destruct J as [|j J _] using rev_ind; [easy|]. rewrite last_last in I3. rewrite !app_assoc, last_last. exact I3.
Qed.
End unescape.
