(** Theorems about link destinations (C26-C28, C51). Only statements; the specification is SpecUrl.v, the model is Url.v with
    NetUrl.v for the recalled package net/url. *)
From Coq Require Import List NArith Bool String.
From Verif Require Import Bytes NetUrl Url SpecText SpecUrl RenderText UrlFacts UrlFacts2.
Import ListNotations.
Open Scope N_scope.
Open Scope list_scope.

(** C27, for any implementation of net/url: none of the brackets and no space. *)
Theorem c27_brackets : forall ops domain raw c,
  In c (assemble_absolute_url ops domain raw) -> ~ In c [32; 60; 62; 40; 41; 91; 93].
Proof. exact assemble_brackets. Qed.
Print Assumptions c27_brackets.
(** With the recalled net/url also no newline and no tab. *)
Theorem c27_no_breakout : forall domain raw c, In c (assemble_absolute_url go_url domain raw) -> ~ breaks_out c.
Proof. exact assemble_no_breakout. Qed.
Print Assumptions c27_no_breakout.
Example c27_ex : assemble_absolute_url go_url (b "example.com/dir/") (b "a (1)[b].html?x=<y>" ++ [10; 9; 122]) =
  b "http://example.com/dir/a%20%281%29%5Bb%5D.html?x=%3Cy%3E%0A%09z".
Proof. vm_compute. reflexivity. Qed.
(** Destinations that could be parsed contain no control character at all ... *)
Theorem c27_parsed_no_control : forall domain raw u,
  url_parse (prepared_raw raw) = Some u -> beqb (trim_space raw) [35] = false -> u_scheme u <> b "data" ->
  forall c, In c (assemble_absolute_url go_url domain raw) -> 32 <= c.
Proof. exact assemble_parsed_low. Qed.
Print Assumptions c27_parsed_no_control.
Example c27_parsed_ex : exists u, url_parse (prepared_raw (b "https://a.b/c?d#" ++ [10; 101])) = Some u /\ u_scheme u <> b "data" /\
  assemble_absolute_url go_url [] (b "https://a.b/c?d#" ++ [10; 101]) = b "https://a.b/c?d#%0Ae".
Proof. eexists. split; [vm_compute; reflexivity|]. split; [discriminate|vm_compute; reflexivity]. Qed.
(** ... but others are written with it, and then CommonMark reads no link. *)
Theorem c27_control_refuted : exists raw, In 13 (assemble_absolute_url go_url [] raw) /\
  read_tail (dest_and_title (assemble_absolute_url go_url [] raw) []) = None.
Proof. exists (b "/a" ++ [13] ++ b "b"). vm_compute. split; [auto|reflexivity]. Qed.
Print Assumptions c27_control_refuted.
(** A backslash at the end of a mailto address takes the closing parenthesis with it. *)
Theorem c27_backslash_refuted : exists raw, forall rest, ~ In 41 rest ->
  read_tail (dest_and_title (assemble_absolute_url go_url [] raw) [] ++ rest) = None.
Proof. exact backslash_breaks. Qed.
Print Assumptions c27_backslash_refuted.

(** C26/C27: destination and title are read back as written.  Missing: destinations with a control character or a backslash
    at the end, titles with a backslash before a double quote or at the end (refuted above and in ThmText.v). *)
Theorem c27_link_read_partial : forall domain raw title rest,
  let dest := assemble_absolute_url go_url domain raw in
  dest <> [] -> (forall c, In c dest -> 32 <= c /\ c <> 127) -> (~ exists x, dest = x ++ [92]) -> ~ stray_backslash title ->
  exists o, read_tail (dest_and_title dest title ++ rest) = Some (dest, o, rest) /\
    (title = [] /\ o = None \/ exists q inner, o = Some inner /\ (q = 34 \/ q = 39) /\ strip_escapes q inner = title).
Proof. exact link_read. Qed.
Print Assumptions c27_link_read_partial.
Example c27_link_ex : read_tail (dest_and_title (assemble_absolute_url go_url [] (b "a b(c)")) (b "it's a \ ""title""") ++ b " more)") =
  Some (b "a%20b%28c%29", Some (b "it's a \ \""title\"""), b " more)").
Proof. vm_compute. reflexivity. Qed.

(** C28: the same number of parameters in the same order, each standing for the same name and value. *)
Theorem c28_query : forall q, (forall c, In c q -> c < 256) -> exists ps ps',
  q = join [38] ps /\ no_amp ps /\
  replace_all [43] (b "%20") (parse_and_encode_query go_url q) = join [38] ps' /\ no_amp ps' /\ Forall2 same_param ps ps'.
Proof. exact query_same. Qed.
Print Assumptions c28_query.
Example c28_ex : replace_all [43] (b "%20") (parse_and_encode_query go_url (b "b=x+y&a=%2b&b&c=&=%zz&d=p=q")) =
  b "b=x%20y&a=%2B&b&c=&=%zz&d=p%3Dq".
Proof. vm_compute. reflexivity. Qed.
Example c28_stands : stands_for (b "x+y%2b") (b "x y+").
Proof. apply unescape_stands. vm_compute. reflexivity. Qed.

(** The same for the whole destination, with or without a domain: the query behind the first question mark. *)
Theorem c28_destination : forall domain raw u, (forall c, In c raw -> c < 256) ->
  url_parse (prepared_raw raw) = Some u -> u_scheme u <> b "data" -> query_of (prepared_raw raw) <> [] ->
  exists ps ps', query_of (prepared_raw raw) = join [38] ps /\ no_amp ps /\
    query_of (assemble_absolute_url go_url domain raw) = join [38] ps' /\ no_amp ps' /\ Forall2 same_param ps ps'.
Proof. exact destination_query. Qed.
Print Assumptions c28_destination.
Example c28_destination_ex : exists u, url_parse (prepared_raw (b " ../x.html?q=a (b)&r=%#f?g ")) = Some u /\
  query_of (prepared_raw (b " ../x.html?q=a (b)&r=%#f?g ")) = b "q=a (b)&r=%" /\
  assemble_absolute_url go_url (b "example.com/a/b/") (b " ../x.html?q=a (b)&r=%#f?g ") =
    b "http://example.com/a/x.html?q=a%20%28b%29&r=%#f?g".
Proof. eexists. vm_compute. repeat split; reflexivity. Qed.

(** C51: replacing the characters that break out does not change what a path, query or fragment stands for. *)
Theorem c51_percent_keeps : forall s t, spells s t <-> spells (percent_replace s) t.
Proof. exact percent_keeps. Qed.
Print Assumptions c51_percent_keeps.
Example c51_ex : percent_replace (b "a (%41)") = b "a%20%28%41%29" /\ spells (b "a%20%28%41%29") (b "a (A)").
Proof. exact percent_example. Qed.
(** It does change the host: an IPv6 address in brackets becomes a host that net/url does not accept. *)
Theorem c51_ipv6_refuted : exists raw u, url_parse raw = Some u /\ url_parse (assemble_absolute_url go_url [] raw) = None.
Proof. exists (b "http://[::1]/a"). eexists. vm_compute. split; reflexivity. Qed.
Print Assumptions c51_ipv6_refuted.
