(** The statements about valid UTF-8 in the words of the specification (C62). *)
From Coq Require Import List NArith ZArith Bool String Lia.
From Verif Require Import Bytes Escape Dom RenderText SpecDom Engine CommonMark Table SpecEngine SpecPipeline SpecUtf8 Utf8Facts Utf8Facts2 Utf8Facts3.
Import ListNotations.
Open Scope N_scope.
Open Scope list_scope.

Lemma utf8_headings sort us url doc out cfg : utf8_run sort Smart us url doc out -> In (UseCommonmark cfg) us ->
  (forall c, In (UseCommonmark c) us -> ~ In 35 (em_delimiter (fill_defaults c)) /\ ~ In 35 (strong_delimiter (fill_defaults c))) ->
  (forall d, In (UseStrikethrough d) us -> d = [] \/ ~ In 35 d /\ exists c, In c d /\ graphic c = true) -> tidy doc = true -> utf8 out.
Proof. intros (Hs & Ib & Op & Hu & D & I & C) Ic Hd Ns T. eapply heads_utf8; eauto. Qed.
Lemma utf8_no_headings sort m us url doc out : utf8_run sort m us url doc out -> without_headings doc = true -> utf8 out.
Proof. intros (Hs & Ib & Op & Hu & D & I & C) W. eapply plain_utf8; eauto. Qed.
Lemma utf8_bool s : Utf8Facts.validb s = true -> utf8 s.
Proof. intros H. now apply utf8_iff, validb_iff. Qed.
Lemma utf8_bool_not s : Utf8Facts.validb s = false -> ~ utf8 s.
Proof. intros H U. apply utf8_iff, validb_iff in U. congruence. Qed.
