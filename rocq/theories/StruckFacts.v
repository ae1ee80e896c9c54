(** Facts for C43 with the strikethrough plugin. *)
From Coq Require Import List NArith ZArith Bool String.
From Verif Require Import Bytes TextUtils Dom DomUtils Collapse SpecDom RenderText Escape Engine CommonMark Table SpecEngine SpecPipeline
  EngineFacts PipelineFacts RenderInv DomFacts DomFacts2 DomFacts3 DomFacts4 StrikeFacts SpecStruck.
Import ListNotations.
Open Scope N_scope.
Open Scope list_scope.

Lemma struck_sealed n : sealed true n = blocks_struck n.
Proof. reflexivity. Qed.
Lemma titles_struck sort : sorts sort -> forall m us cfg url doc, In (UseCommonmark cfg) us -> valid_cfg cfg = true -> everywhere title_shape (prepared sort (converter_with m us) url doc) = true.
Proof. intros Hs m us cfg url doc I V. exact (prepared_headed sort Hs m us cfg url doc I V). Qed.
