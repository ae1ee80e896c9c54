(** What is rendered for the parts of a paragraph (C67). *)
From Coq Require Import List NArith ZArith Bool String Lia ZifyBool ZifyNat ZifyN.
From Verif Require Import SpecDom DomFacts4 Bytes BytesFacts TextUtils TextFacts TextFacts2 RenderText RenderFacts RenderFacts2 RenderFacts4 RenderFacts5 Escape SpecEscape SpecText SpecText2
  SpecUrl UrlFacts Dom DomUtils Engine CommonMark SpecEngine EngineFacts SpecPipeline PipelineFacts SpecPlain SpecNode NodeFacts PanicFacts PlainFacts2 PlainFacts3 PlainFacts4 SpecBlocks BlockFacts0 BlockFacts
  BlockFacts1 BlockFacts2 BlockFacts3 BlockFacts4 RenderFacts3 EscapeFacts EscapeFacts4 EscapeFacts6 SpecInline InlineFacts1 InlineFacts2 InlineFacts3 InlineFacts4.
Import ListNotations.
Open Scope N_scope.
Open Scope list_scope.
Notation nm := no_newline_mark.

(** ** Undoing the escapes: every marker becomes a backslash or nothing *)
Inductive undone : bytes -> bytes -> Prop :=
| un_nil : undone [] []
| un_keep c s o : c <> 7 -> undone s o -> undone (c :: s) (c :: o)
| un_drop s o : undone s o -> undone (7 :: s) o
| un_slash s o : undone s o -> undone (7 :: s) (92 :: o).
Lemma unescape_undone ds s : forall skip rb, undone s (unescape_from ds skip rb s).
Proof.
  induction s as [|c s IH]; intros skip rb; [constructor|]. cbn [unescape_from]. unfold marker_esc, cBSL. destruct (c =? 7) eqn:C.
  - apply N.eqb_eq in C. subst c. destruct skip as [|k]; [|apply un_drop; apply IH]. destruct s as [|d s']; [apply un_drop; constructor|].
    destruct (first_skip ds (7 :: rb) d s'); [apply un_slash|apply un_drop]; apply IH.
  - apply N.eqb_neq in C. apply un_keep; auto.
Qed.
Lemma undone_app x : forall y o, undone (x ++ y) o -> exists p q, o = p ++ q /\ undone x p /\ undone y q.
Proof.
  induction x as [|c x IH]; intros y o U; [exists [], o; repeat split; auto; constructor|]. cbn [app] in U. inversion U as [|? ? ? C U'|? ? U'|? ? U']; subst.
  - destruct (IH _ _ U') as (p & q & -> & U1 & U2). exists (c :: p), q. repeat split; auto. now apply un_keep.
  - destruct (IH _ _ U') as (p & q & -> & U1 & U2). exists p, q. repeat split; auto. now apply un_drop.
  - destruct (IH _ _ U') as (p & q & -> & U1 & U2). exists (92 :: p), q. repeat split; auto. now apply un_slash.
Qed.
Lemma undone_same x o : undone x o -> ~ In 7 x -> o = x.
Proof.
  induction 1 as [|c s o C U IH|s o U IH|s o U IH]; intros N; auto; [|elim N; now left..]. f_equal. apply IH. intros I. apply N. now right.
Qed.
Lemma undone_cons c x o : c <> 7 -> undone (c :: x) o -> exists p, o = c :: p /\ undone x p.
Proof. intros C U. inversion U; subst; try easy. eauto. Qed.
Lemma undone_parts ss : forall o, undone (List.concat ss) o -> exists os, o = List.concat os /\ Forall2 undone ss os.
Proof.
  induction ss as [|s ss IH]; intros o U.
  - exists []. inversion U. split; [reflexivity|constructor].
  - cbn [List.concat] in U. apply undone_app in U as (p & q & -> & U1 & U2). destruct (IH _ U2) as (os & -> & F). exists (p :: os). split; [reflexivity|now constructor].
Qed.
Lemma undone_in c s o : undone s o -> In c o -> In c s \/ c = 92.
Proof. induction 1; cbn [In]; intuition. Qed.

(** ** Texts *)
Lemma quiet_parts t : quiet_text t = true -> t <> [] /\ nm t = true /\ Forall (fun c => quiet_char c = true) t.
Proof. unfold quiet_text. rewrite !andb_true_iff. intros [[[N M] F] _]. split; [now destruct t|]. split; auto. rewrite forallb_forall in F. now apply Forall_forall. Qed.
Section texts.
Variable l : list N.
Hypothesis Hl : forall c, In c l -> c < 128 /\ c <> 0 /\ c <> 7 /\ ~ ws_byte c.
Hypothesis Hp : forall c, In c l -> ascii_punct c = true /\ c <> 38 /\ c <> 59.
Lemma img_shown s t : img l s t -> Forall (fun c => quiet_char c = true) t -> forall o, undone s o -> ~ In 60 s -> shown_as t o.
Proof.
  induction 1 as [|c s v N0 N7 N38 E M IH|c s v E M IH|s v M IH|s v M IH]; intros Q o U N60.
  - inversion U. constructor.
  - inversion Q as [|? ? Q1 Q2]; subst. apply undone_cons in U as (p & -> & U); auto. apply sa_char; auto; [intros ->; apply N60; now left|]. apply IH; auto. intros I. apply N60. now right.
  - inversion Q as [|? ? Q1 Q2]; subst. assert (Ip : ascii_punct c = true) by (apply Hp; unfold is_escaped_in in E; apply existsb_exists in E as (y & I & Ey); apply N.eqb_eq in Ey; now subst). assert (c <> 7) by (intros ->; discriminate).
    assert (N' : ~ In 60 s) by (intros I; apply N60; right; now right).
    inversion U as [|? ? ? C U'|? ? U'|? ? U']; subst; [easy| |]; apply undone_cons in U' as (p & -> & U'); auto; [apply sa_char|apply sa_escape]; auto. intros ->. apply N60. right. now left.
  - inversion Q; subst. repeat (apply undone_cons in U as (? & -> & U); [|discriminate]). apply sa_lt. apply IH; auto. intros I. apply N60. cbn [In]. tauto.
  - inversion Q; subst. repeat (apply undone_cons in U as (? & -> & U); [|discriminate]). apply sa_gt. apply IH; auto. intros I. apply N60. cbn [In]. tauto.
Qed.
Lemma img_space c s v : img l (c :: s) v -> c = 32 -> exists u, v = 32 :: u.
Proof. intros M ->. inversion M; subst; eauto. Qed.
Lemma img_starts s v : img l s v -> v <> [] -> is_space_rune (fst (decode_rune v)) = false -> is_space_rune (fst (decode_rune s)) = false.
Proof.
  intros M Nv H1. assert (Nw : s <> []) by (intros ->; inversion M; subst; easy). 
  destruct (trim_left_spaces s) as (x & Ex & Sx). assert (Zx : x = []).
  { destruct x as [|c x]; auto. exfalso. rewrite Ex in M. apply (img_suffix l Hl Hp) in M as (v' & _ & E); [|now apply spaces_ws].
    rewrite E in H1. rewrite space_prefix in H1 by (auto; discriminate). discriminate. }
  subst x. cbn in Ex. rewrite Ex. apply trim_left_starts. congruence.
Qed.
Lemma img_ends s v : img l s v -> v <> [] -> is_space_rune (fst (decode_last_rune v)) = false -> is_space_rune (fst (decode_last_rune s)) = false.
Proof.
  intros M Nv H2. assert (Nw : s <> []) by (intros ->; inversion M; subst; easy). 
  destruct (trim_right_spaces s) as (y & Ey & Sy). assert (Zy : y = []).
  { destruct y as [|c y]; auto. exfalso. rewrite Ey in M. apply (img_prefix l Hl Hp) in M as (v' & _ & E); [|now apply spaces_ws].
    rewrite E in H2. rewrite space_suffix in H2 by (auto; discriminate). discriminate. }
  subst y. rewrite app_nil_r in Ey. rewrite Ey. apply trim_right_ends. congruence.
Qed.
End texts.
Lemma busy_high x y t o : busy_as (x :: y :: t) o -> 128 <= x -> 128 <= y -> exists p, o = x :: y :: p.
Proof.
  intros S X Y. assert (G : forall z, 128 <= z -> ascii_punct z = true -> False) by (intros z Z A; unfold ascii_punct, in_range in A; lia).
  inversion S as [|? ? ? Q N N1 N2 N3 N4 N5 S1|? ? ? Q A S1|? ? ? C U S1| |]; subst; try lia; [|elim (G x X A)].
  inversion S1 as [|? ? ? Q' N' M1 M2 M3 M4 M5 S2|? ? ? Q2 A2 S2|? ? ? C2 U2 S2| |]; subst; try lia; [|elim (G y Y A2)]. eauto.
Qed.
Lemma busy_nm t o : busy_as t o -> nm t = true -> nm o = true.
Proof.
  induction 1 as [|c t o Q N N1 N2 N3 N4 N5 S IH|c t o Q A S IH|c t o C U S IH|t o S IH|t o S IH]; intros M; auto; rewrite ?nm_cons in M; apply andb_true_iff in M as [M1 M2].
  - rewrite nm_cons. apply andb_true_iff. split; auto. destruct (c =? 239); auto. destruct t as [|x [|y t]]; try discriminate.
    assert (X : 128 <= x /\ 128 <= y) by (unfold continuation in M1; lia). destruct X as [X Y]. destruct (busy_high x y t o S X Y) as (p & ->). exact M1.
  - rewrite !nm_ascii; auto; [unfold ascii_punct, in_range in A; lia|lia].
  - rewrite nm_ascii; auto. lia.
Qed.
Lemma busy_none d t o : d = 9 \/ d = 10 -> busy_as t o -> ~ In d o.
Proof.
  intros D. induction 1 as [|c t o Q N N1 N2 N3 N4 N5 S IH|c t o Q A S IH|c t o C U S IH|t o S IH|t o S IH]; cbn [In]; [tauto| | | |intuition lia|intuition lia].
  1,2: pose proof (busy_not c 9 Q ltac:(cbn; tauto)); pose proof (busy_not c 10 Q ltac:(cbn; tauto)); intuition lia.
  intuition lia.
Qed.
Lemma busy_parts t : busy_text t = true -> t <> [] /\ nm t = true /\ Forall (fun c => busy_char c = true) t.
Proof. unfold busy_text. rewrite !andb_true_iff. intros [[[[[N M] F] _] _] _]. split; [now destruct t|]. split; auto. rewrite forallb_forall in F. now apply Forall_forall. Qed.
Lemma shown_high x y t o : shown_as (x :: y :: t) o -> 128 <= x -> 128 <= y -> exists p, o = x :: y :: p.
Proof.
  intros S X Y. assert (G : forall z, 128 <= z -> ascii_punct z = true -> False) by (intros z Z A; unfold ascii_punct, in_range in A; lia).
  inversion S as [|? ? ? Q N S1|? ? ? Q A S1| |]; subst; try lia; [|elim (G x X A)].
  inversion S1 as [|? ? ? Q2 N2 S2|? ? ? Q2 A2 S2| |]; subst; try lia; [|elim (G y Y A2)]. eauto.
Qed.
Lemma shown_nm t o : shown_as t o -> nm t = true -> nm o = true.
Proof.
  induction 1 as [|c t o Q N S IH|c t o Q A S IH|t o S IH|t o S IH]; intros M; auto; rewrite ?nm_cons in M; apply andb_true_iff in M as [M1 M2].
  - rewrite nm_cons. apply andb_true_iff. split; auto. destruct (c =? 239); auto. destruct t as [|x [|y t]]; try discriminate.
    assert (X : 128 <= x /\ 128 <= y) by (unfold continuation in M1; lia). destruct X as [X Y]. destruct (shown_high x y t o S X Y) as (p & ->). exact M1.
  - rewrite !nm_ascii; auto; [unfold ascii_punct, in_range in A; lia|lia].
Qed.
Lemma shown_no10 t o : shown_as t o -> ~ In 10 o.
Proof.
  induction 1 as [|c t o Q N S IH|c t o Q A S IH|t o S IH|t o S IH]; cbn [In]; [tauto| | |intuition discriminate|intuition discriminate].
  all: pose proof (quiet_not c 10 Q ltac:(cbn; tauto)); intuition congruence.
Qed.

(** ** One line that hugs *)
Lemma surround_hugs s : hugs s -> surrounding_spaces s = ([], s, []).
Proof.
  intros (N & H1 & H2). unfold surrounding_spaces. rewrite (trim_right_id s) by (intros _; exact H2). rewrite (trim_left_id s) by (intros _; exact H1).
  now rewrite skipn_all, Nat.sub_diag.
Qed.
Lemma emphasis_hugs d s : hugs s -> ~ In 10 s -> emphasis_text d s = d ++ s ++ d.
Proof.
  intros H N. unfold emphasis_text, delimiter_for_every_line, cNL. rewrite single_line by auto. cbn [map join]. unfold delimit_line. rewrite surround_hugs by auto.
  destruct s as [|c s]; [now destruct H|]. cbn [is_empty app]. now rewrite ?app_nil_r.
Qed.
Lemma link_hugs cfg dest s : link_style cfg = b "inlined" -> dest <> [] -> hugs s -> ~ In 10 s -> link_text cfg dest [] s = Some (91 :: s ++ 93 :: dest_and_title dest []).
Proof.
  intros L Nd H N. unfold link_text. replace (is_empty dest) with false by now destruct dest. cbn [andb]. cbv zeta.
  assert (T : trim_space s = s) by (destruct H as (_ & H1 & H2); apply trim_space_id; intros _; auto). rewrite T. destruct s as [|c s]; [now destruct H|]. cbn [is_empty andb]. rewrite surround_hugs by auto.
  rewrite L. change (beqb (b "inlined") (b "inlined")) with true. cbv iota. unfold trim_consecutive_newlines. rewrite tcn_id by now apply triple_end.
  unfold escape_multi_line, cNL. rewrite single_line by auto. change (replace_all [10] [cSP] []) with (@nil byte). cbn [app]. now rewrite app_nil_r.
Qed.
Lemma squeeze_single d : single_spaced d = true -> squeeze_spaces false d = d.
Proof.
  induction d as [|c d IH]; intros H; auto. cbn [single_spaced squeeze_spaces] in *. apply andb_true_iff in H as [H1 H2]. unfold cSP. specialize (IH H2). destruct (c =? 32) eqn:C; [|now rewrite IH].
  f_equal. destruct d as [|e d]; auto. cbn [first_is andb negb squeeze_spaces] in *. unfold cSP in *. destruct (e =? 32) eqn:E; [discriminate|]. exact IH.
Qed.
Lemma code_written d : quiet_code d = true -> exists n, inline_code_text d = repeat 96 (S n) ++ d ++ repeat 96 (S n) /\ (
  forall rest, first_is 96 rest = false -> read_code_span (inline_code_text d ++ rest) = Some (d, rest)).
Proof.
  intros Q. destruct (quiet_code_calm d Q) as (F & S & N & T). unfold quiet_code in Q. rewrite !andb_true_iff, !negb_true_iff in Q. destruct Q as [[_ Q1] Q2].
  assert (R : forall c new, c = 10 \/ c = 9 -> replace_all [c] new d = d).
  { intros c new C. apply PlainFacts2.replace_none. intros (x & y & ->). rewrite forallb_forall in F. specialize (F c ltac:(rewrite !in_app_iff; cbn; tauto)). cbn in F. destruct C; subst c; discriminate. }
  assert (Ec : collapse_inline_code d = d). { unfold collapse_inline_code, cNL, cTAB. rewrite !R by auto. rewrite T. now apply squeeze_single. }
  assert (Ns : ~ spaces d) by (rewrite <- trim_space_nil, T; exact N).
  split with (code_fence_occurrences 96 d). split.
  - unfold inline_code_text. rewrite T. destruct d as [|c d]; [easy|]. cbn [is_empty]. rewrite Ec. cbv zeta. cbn [first_is] in Q1. cbn [has_prefix]. rewrite N.eqb_sym, Q1. cbn [andb].
    assert (E : has_suffix [96] (c :: d) = false). { unfold last_is in Q2. unfold has_suffix. cbn [rev app] in *. destruct (rev d ++ [c]) as [|y z]; auto. cbn [has_prefix]. rewrite andb_true_r, N.eqb_sym. exact Q2. }
    now rewrite E.
  - intros rest Fr. pose proof (inline_round_trip d rest Ns Fr) as I. cbv zeta in I. rewrite Ec in I. apply I. congruence.
Qed.

Lemma address_parts d : plain_address d = true -> d <> [] /\ nm d = true /\ (forall x, d <> x ++ [92]) /\ forall c, In c d -> 32 < c /\ c <> 127 /\ c <> 40 /\ c <> 41 /\ c <> 60.
Proof.
  unfold plain_address. rewrite !andb_true_iff. intros [[[N M] L] F]. split; [now destruct d|]. split; auto. split.
  - intros x ->. unfold last_is in L. rewrite rev_app_distr in L. discriminate.
  - intros c I. rewrite forallb_forall in F. apply F in I. cbn [existsb] in I. lia.
Qed.
Lemma decode_rune_ascii q w z : q < 128 -> w <> [] -> decode_rune (w ++ q :: z) = decode_rune w.
Proof.
  intros Q. assert (Cq : is_cont q = false) by (unfold is_cont, in_range; lia).
  destruct w as [|c t]; [easy|]. intros _. cbn [app]. unfold decode_rune. destruct (c <? 128); auto.
  destruct (in_range 194 223 c). { destruct t as [|b1 u]; cbn [app]; [now rewrite Cq|reflexivity]. }
  assert (R : forall lo hi, 128 <= lo -> in_range lo hi q = false) by (intros; unfold in_range; lia).
  destruct (in_range 224 239 c) eqn:E3.
  { destruct t as [|b1 [|b2 u]]; auto; cbn [app].
    - destruct z; auto. cbv zeta. destruct (c =? 224), (c =? 237); rewrite R by lia; reflexivity.
    - cbv zeta. rewrite Cq. now rewrite andb_false_r. }
  destruct (in_range 240 244 c) eqn:E4; auto.
  destruct t as [|b1 [|b2 [|b3 u]]]; auto; cbn [app].
  - destruct z as [|y [|y' z]]; auto. cbv zeta. destruct (c =? 240), (c =? 244); rewrite R by lia; reflexivity.
  - destruct z as [|y z]; auto. cbv zeta. rewrite Cq. now rewrite andb_false_r.
  - cbv zeta. rewrite Cq. now rewrite andb_false_r.
Qed.
Lemma nm_repeat c n : c < 128 -> nm (repeat c n) = true.
Proof. intros C. induction n as [|n IH]; auto. cbn [repeat]. now rewrite nm_ascii. Qed.

(** ** The parts of a paragraph: [T] says how texts are written, [em] how the parts of emphasis are written, [inner] how the parts of a link are written *)
Definition text_sound (t s : bytes) : Prop := t <> [] /\ nm s = true /\ ~ In 10 s /\ exists c u, s = c :: u /\ (c = 32 -> hd 0 t = 32) /\ c <> 9.
Definition sound (n : node) (s : bytes) : Prop := nm s = true /\ ~ In 10 s /\ exists c u, s = c :: u /\ (c = 32 -> first_byte n = 32) /\ c <> 9.
Lemma concat_sound (inner : node -> bytes -> Prop) (Hinner : forall n s, inner n s -> sound n s) ks ss : Forall2 inner ks ss -> nm (List.concat ss) = true /\ ~ In 10 (List.concat ss).
Proof.
  induction 1 as [|k s ks ss H _ [I1 I2]]; [split; [reflexivity|easy]|]. destruct (Hinner _ _ H) as (A & B & _). cbn [List.concat]. split; [now apply nm_app|]. rewrite in_app_iff. tauto.
Qed.
(** Only texts *)
Inductive only (Q : bytes -> bytes -> Prop) : node -> bytes -> Prop := only_text t s : Q t s -> only Q (Text t) s.
Lemma only_sound (Q : bytes -> bytes -> Prop) : (forall t s, Q t s -> text_sound t s) -> forall n s, only Q n s -> sound n s.
Proof.
  intros HT n s [t o H]. destruct (HT t o H) as (_ & A & B & c & u & -> & C & D). split; auto. split; auto. exists c, u. split; auto. split; auto. intros Z. specialize (C Z). destruct t; [discriminate C|exact C].
Qed.
Section drawn.
Variable url : bytes -> bytes.
Variable cfg : config.
Variable T : bytes -> bytes -> Prop.
Variables em inner : node -> bytes -> Prop.
Inductive drawn : node -> bytes -> Prop :=
| dr_text t s : T t s -> drawn (Text t) s
| dr_emphasis y a ks ss : strong_element y || em_element y = true -> Forall2 em ks ss -> drawn (Elem y a ks) (delimiter cfg y ++ List.concat ss ++ delimiter cfg y)
| dr_code y a d : code_element y = true -> quiet_code d = true -> drawn (Elem y a [Text d]) (inline_code_text d)
| dr_link a ks ss : Forall2 inner ks ss -> plain_address (url (attribute (Elem (b "a") a ks) (b "href"))) = true ->
    drawn (Elem (b "a") a ks) (91 :: List.concat ss ++ 93 :: dest_and_title (url (attribute (Elem (b "a") a ks) (b "href"))) []).
Hypothesis Hcfg : usual_delimiters cfg.
Hypothesis HT : forall t s, T t s -> text_sound t s.
Hypothesis HE : forall n s, em n s -> sound n s.
Hypothesis Hinner : forall n s, inner n s -> sound n s.
Lemma nm_delimiter y : nm (delimiter cfg y) = true /\ ~ In 10 (delimiter cfg y).
Proof.
  destruct (delimiter_cases cfg Hcfg y) as (c & k & -> & C & _). split; [apply nm_repeat; lia|]. intros I. apply repeat_spec in I. lia.
Qed.
Lemma drawn_sound n s : drawn n s -> sound n s.
Proof.
  intros [t o H|y a ks ss El H|y a d C Q|a ks ss F P].
  - destruct (HT t o H) as (_ & A & B & c & u & -> & C & D). split; auto. split; auto. exists c, u. split; auto. split; auto. intros Z. specialize (C Z). destruct t; [discriminate C|exact C].
  - destruct (concat_sound em HE _ _ H) as [A B]. destruct (nm_delimiter y) as [D1 D2]. split; [repeat apply nm_app; auto|]. split; [rewrite !in_app_iff; tauto|].
    destruct (delimiter_cases cfg Hcfg y) as (c & k & Ed & C & K & _). rewrite Ed. destruct k as [|k]; [destruct (strong_element y); discriminate|]. cbn [repeat app]. eexists c, _. split; [reflexivity|]. destruct C; subst c; split; easy.
  - destruct (code_written d Q) as (k0 & -> & _). destruct (quiet_code_calm d Q) as (F & _). unfold quiet_code in Q. rewrite !andb_true_iff in Q. destruct Q as [[[[[[_ M] _] _] _] _] _]. split; [|split].
    + repeat apply nm_app; auto; now apply nm_repeat.
    + rewrite !in_app_iff. rewrite forallb_forall in F. intros [I|[I|I]]; [apply repeat_spec in I; discriminate|apply F in I; discriminate|apply repeat_spec in I; discriminate].
    + cbn [repeat app]. eexists 96, _. split; [reflexivity|]. split; easy.
  - destruct (concat_sound inner Hinner _ _ F) as [A B]. destruct (address_parts _ P) as (_ & M & _ & D). set (dest := url _) in *. clearbody dest. unfold dest_and_title. cbn [is_empty app].
    split; [|split].
    + rewrite nm_ascii by lia. apply nm_app; auto. rewrite !nm_ascii by lia. apply nm_app; auto.
    + cbn [In]. rewrite !in_app_iff. cbn [In]. rewrite in_app_iff. cbn [In]. intros I. decompose [or] I; try discriminate; try contradiction. match goal with J : In 10 dest |- _ => apply D in J; lia end.
    + eexists 91, _. split; [reflexivity|]. split; easy.
Qed.
(** White space at the ends *)
Definition text_node (n : node) : bool := match n with Text _ => true | _ => false end.
Lemma drawn_edges n s : drawn n s -> text_node n = false -> (exists c u, s = c :: u /\ 33 <= c < 128) /\ exists c u, s = u ++ [c] /\ 33 <= c < 128.
Proof.
  intros [t o H|y a ks ss El H|y a d C Q|a ks ss F P] Nt; [discriminate| | |].
  - destruct (delimiter_cases cfg Hcfg y) as (c & k & Ed & C & K & _). rewrite Ed. destruct k as [|k]; [destruct (strong_element y); discriminate|]. split.
    + cbn [repeat app]. eexists c, _. split; [reflexivity|lia].
    + exists c, (repeat c (S k) ++ List.concat ss ++ repeat c k). split; [|lia]. rewrite <- !app_assoc. do 2 f_equal. now rewrite <- repeat_cons.
  - destruct (code_written d Q) as (j & -> & _). split.
    + cbn [repeat app]. eexists 96, _. split; [reflexivity|lia].
    + exists 96, (repeat 96 (S j) ++ d ++ repeat 96 j). split; [|lia]. rewrite <- !app_assoc. do 2 f_equal. now rewrite <- repeat_cons.
  - split.
    + eexists 91, _. split; [reflexivity|lia].
    + set (dest := url _). exists 41, (91 :: List.concat ss ++ 93 :: 40 :: dest). split; [|lia]. unfold dest_and_title. cbn [is_empty app]. f_equal. rewrite <- app_assoc. reflexivity.
Qed.
Definition starts_in (s : bytes) : Prop := s <> [] /\ is_space_rune (fst (decode_rune s)) = false.
Definition ends_in (s : bytes) : Prop := s <> [] /\ is_space_rune (fst (decode_last_rune s)) = false.
Hypothesis HTe : forall t s, T t s -> (starts_in t -> starts_in s) /\ (ends_in t -> ends_in s).
Lemma drawn_starts q ks ss : forall prev before, runs url cfg q prev before ks = true -> Forall2 drawn ks ss -> ks <> [] ->
  match ks with Text d :: _ => is_space_rune (fst (decode_rune d)) = false | _ => True end -> starts_in (List.concat ss).
Proof.
  intros prev before R F N H. destruct F as [|n s ks ss D F]; [easy|]. cbn [List.concat]. destruct (text_node n) eqn:Nt.
  - destruct n as [t| | | |]; try discriminate. inversion D as [? ? X| | |]; subst. destruct (HTe t s X) as [S _]. destruct (S (conj (proj1 (HT t s X)) H)) as [Ns Hs].
    split; [now destruct s|]. destruct F as [|m s2 ks ss D2 F]; [now rewrite app_nil_r|]. cbn [List.concat].
    assert (Nm : text_node m = false). { destruct m as [t2| | | |]; auto. exfalso. cbn [runs kind_of] in R. rewrite !andb_true_iff in R. destruct R as [_ [_ [_ [R _]]]]. discriminate. }
    destruct (drawn_edges m s2 D2 Nm) as [(c & u & -> & C) _]. cbn [app]. rewrite decode_rune_ascii by (auto; lia). exact Hs.
  - destruct (drawn_edges n s D Nt) as [(c & u & -> & C) _]. cbn [app]. split; [discriminate|]. now apply first_ascii.
Qed.
Lemma drawn_ends q ks ss : Forall2 drawn ks ss -> forall prev before z, runs url cfg q prev before ks = true -> ks <> [] ->
  match last ks (Comment []) with Text d => is_space_rune (fst (decode_last_rune d)) = false | _ => True end ->
  z = [] \/ (exists c u, z = u ++ [c] /\ c < 128) \/ text_node (hd (Comment []) ks) = false -> ends_in (z ++ List.concat ss).
Proof.
  induction 1 as [|n s ks ss D F IH]; intros prev before z R N H Z; [easy|]. cbn [List.concat hd] in *.
  pose proof R as R0. cbn [runs] in R. apply andb_true_iff in R as [_ R]. destruct (kind_of n) as [k|] eqn:K; [|discriminate]. apply andb_true_iff in R as [_ R].
  destruct F as [|m s2 ks ss D2 F].
  - cbn [List.concat last] in *. rewrite app_nil_r. destruct (text_node n) eqn:Nt.
    + destruct n as [t| | | |]; try discriminate. inversion D as [? ? X| | |]; subst. destruct (HTe t s X) as [_ S]. destruct (S (conj (proj1 (HT t s X)) H)) as [Ns Hs].
      destruct Z as [->|[(c & u & -> & C)|Z]]; [now split| |discriminate]. split; [destruct u; discriminate|]. rewrite <- app_assoc. cbn [app]. now apply decode_last_ascii.
    + destruct (drawn_edges n s D Nt) as [_ (c & u & -> & C)]. rewrite app_assoc. split; [intros Z0; symmetry in Z0; now apply app_cons_not_nil in Z0|now apply last_ascii].
  - rewrite app_assoc. eapply IH; [exact R|discriminate|exact H|]. destruct (text_node n) eqn:Nt.
    + right. right. cbn [hd]. destruct n as [t| | | |]; try discriminate. destruct m as [t2| | | |]; auto. exfalso. cbn [runs kind_of] in R0. rewrite !andb_true_iff in R0. destruct R0 as [_ [_ [_ [R0 _]]]]. discriminate.
    + right. left. destruct (drawn_edges n s D Nt) as [_ (c & u & -> & C)]. exists c, (z ++ u). split; [now rewrite app_assoc|lia].
Qed.
Lemma drawn_hugs q ks ss : filled (runs url cfg q) ks = true -> Forall2 drawn ks ss -> hugs (List.concat ss).
Proof.
  intros R F. destruct ks as [|n ks]; [discriminate|]. unfold filled in R. rewrite !andb_true_iff in R. destruct R as [[_ Sn] R]. unfold snug in Sn. apply andb_true_iff in Sn as [S1 S2].
  destruct (drawn_starts _ _ _ _ _ R F ltac:(discriminate)) as [N H1]. { destruct n; auto. now apply negb_true_iff. }
  destruct (drawn_ends _ _ _ F _ _ [] R ltac:(discriminate)) as [_ H2]; auto. { destruct (last (n :: ks) (Comment [])); auto. now apply negb_true_iff. }
  split; auto.
Qed.
End drawn.
