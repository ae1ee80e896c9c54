(** Facts for C66. *)
From Coq Require Import List NArith ZArith Bool String.
From Verif Require Import Bytes Escape Dom RenderText Engine SpecEngine EngineFacts CommonMark NetUrl Url SpecPipeline PipelineFacts Api SpecApi.
Import ListNotations.
Open Scope list_scope.

Lemma default_err : cv_err (converter_with Smart default_uses) = None.
Proof. vm_compute. reflexivity. Qed.
Lemma default_renders : is_empty (cv_render (converter_with Smart default_uses)) = false.
Proof. vm_compute. reflexivity. Qed.
Lemma default_base : existsb (beqb (b "base")) (cv_plugins (converter_with Smart default_uses)) = true.
Proof. vm_compute. reflexivity. Qed.

Section facts.
Variables (context reader : Type) (string_reader : bytes -> reader) (parse_html : reader -> bytes + node).
Variable sort : forall A : Type, list (Z * A) -> list (Z * A).
Hypothesis Hsort : sorts sort.
Notation mnode := (method_node context sort).
Notation mreader := (method_reader context reader parse_html sort).
Notation mstring := (method_string context reader string_reader parse_html sort).

Lemma gather_domain opts d : domain_of context opts d -> o_domain context (gather context opts) = d.
Proof.
  assert (K : forall z, (forall d, ~ In (WithDomain context d) z) -> forall o, o_domain context (fold_left (apply_convert_option context) z o) = o_domain context o).
  { induction z as [|x z IH]; intros N o; auto. cbn [fold_left]. rewrite IH by (intros e I; apply (N e); now right). destruct x as [c|e]; auto. elim (N e). now left. }
  unfold gather. intros [N|x d' z N].
  - now rewrite K.
  - rewrite fold_left_app. cbn [fold_left]. now rewrite K.
Qed.
Lemma methods_agree c s doc opts : parse_html (string_reader s) = inr doc ->
  mstring c s opts = mnode c doc opts /\ mreader c (string_reader s) opts = mnode c doc opts.
Proof.
  intros E. unfold method_string, method_reader. rewrite E. split; auto. unfold method_node.
  destruct (convert_node _ _ _ _) as [e|[o| |]]; reflexivity.
Qed.
Lemma error_empty c s opts out e : mstring c s opts = Answer out (Some e) -> out = [].
Proof.
  unfold method_string. destruct (mreader c (string_reader s) opts) as [o [e'|]|]; intros H; try discriminate. now injection H as <- _.
Qed.
Lemma error_empty_reader c r opts out e : mreader c r opts = Answer out (Some e) -> out = [].
Proof.
  unfold method_reader, method_node. destruct (parse_html r) as [x|doc]; [intros H; now injection H as <- _|].
  destruct (convert_node _ _ _ _) as [x|[o| |]]; intros H; try discriminate. now injection H as <- _.
Qed.
Lemma error_empty_node c doc opts out e : mnode c doc opts = Answer out (Some e) -> out = [].
Proof.
  unfold method_node. destruct (convert_node _ _ _ _) as [x|[o| |]]; intros H; try discriminate. now injection H as <- _.
Qed.
Lemma mode_default ps : new_converter [OptMode Smart; OptPlugins ps] = new_converter [OptPlugins ps].
Proof. reflexivity. Qed.
Lemma package_is : package_converter = converter_with Smart default_uses.
Proof. unfold converter_with. rewrite mode_default. unfold package_converter, default_uses. cbn [map plugin_of]. exact eq_refl. Qed.
Lemma package_converts doc opts d : domain_of context opts d ->
  exists md, converts (convert_node sort (converter_with Smart default_uses) (fun _ raw => assemble_absolute_url go_url d raw) doc) md
    /\ package_node context sort doc opts = Answer md None.
Proof.
  intros D. unfold package_node, method_node. rewrite (gather_domain _ _ D), package_is.
  assert (S : match convert_node sort (converter_with Smart default_uses) (fun _ raw => assemble_absolute_url go_url d raw) doc with Failed _ | Returned (Done _) => True | _ => False end).
  { apply smart_no_panic; auto. intros x [I|[I|[]]]; discriminate. }
  assert (F : forall e, convert_node sort (converter_with Smart default_uses) (fun _ raw => assemble_absolute_url go_url d raw) doc <> Failed e).
  { intros e. unfold convert_node. rewrite default_err. destruct (in_order sort (cv_render (converter_with Smart default_uses))) eqn:E.
    - apply in_order_nil in E; auto. pose proof default_renders as R. rewrite E in R. discriminate R.
    - cbn [is_empty]. rewrite default_base, andb_false_r. discriminate. }
  destruct (convert_node _ _ _ _) as [e|[md| |]]; [|  |destruct S|destruct S]; [elim (F e); reflexivity|]. exists md. split; reflexivity.
Qed.
Lemma package_agree s doc opts d : parse_html (string_reader s) = inr doc -> domain_of context opts d ->
  exists md, converts (convert_node sort (converter_with Smart default_uses) (fun _ raw => assemble_absolute_url go_url d raw) doc) md
    /\ package_node context sort doc opts = Answer md None
    /\ package_reader context reader parse_html sort (string_reader s) opts = Answer md None
    /\ package_string context reader string_reader parse_html sort s opts = Answer md None.
Proof.
  intros P D. destruct (package_converts doc opts d D) as (md & C & E). exists md. split; auto. split; auto.
  unfold package_reader, package_string. destruct (methods_agree package_converter s doc opts P) as [-> ->]. auto.
Qed.
Lemma read_error c s e opts : parse_html (string_reader s) = inl e -> mstring c s opts = Answer [] (Some e) /\ mreader c (string_reader s) opts = Answer [] (Some e).
Proof. intros E. unfold method_string, method_reader. rewrite E. auto. Qed.
End facts.
