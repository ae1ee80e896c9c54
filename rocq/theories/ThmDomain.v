(** Theorems about addresses and the domain (C65). Only statements; the specification is SpecDomain.v, the model is Url.v with
    NetUrl.v for the recalled package net/url. *)
From Coq Require Import List NArith Bool String Lia.
From Verif Require Import Bytes NetUrl Url SpecDomain DomainFacts3.
Import ListNotations.
Open Scope N_scope.
Open Scope list_scope.

(** ** C65 *)
(** A relative address (path, query and fragment, each may be absent) with a domain: it gets the scheme and the host of the domain,
    the path is resolved against the path of the domain as RFC 3986 says, and query and fragment are the same as without a domain.
    Missing: paths with other characters than the unreserved ones, paths with empty segments, user names and brackets in the domain. *)
Theorem c65_relative_partial : forall domain scheme host base path t,
  domain_is domain scheme host base -> simple_path path = true -> good_tail t -> path ++ t <> b "#" ->
  exists t', tail_of t' /\ assemble_absolute_url go_url [] (path ++ t) = path ++ t' /\
    assemble_absolute_url go_url domain (path ++ t) = scheme ++ b "://" ++ host ++ resolved base path ++ t'.
Proof. exact with_domain. Qed.
Print Assumptions c65_relative_partial.
Example c65_relative_ex : domain_is (b "localhost:8080/docs/guide/index.html") (b "http") (b "localhost:8080") (b "/docs/guide/index.html")
  /\ simple_path (b "../img/./a.png") = true /\ good_tail (b "?v=1+2#top")
  /\ resolved (b "/docs/guide/index.html") (b "../img/./a.png") = b "/docs/img/a.png"
  /\ assemble_absolute_url go_url (b "localhost:8080/docs/guide/index.html") (b "../img/./a.png?v=1+2#top")
     = b "http://localhost:8080/docs/img/a.png?v=1%202#top".
Proof.
  split; [|split; [reflexivity|split; [|split; vm_compute; reflexivity]]].
  - apply (domain_bare (b "localhost:8080") (b "/docs/guide/index.html")); [|reflexivity|reflexivity].
    exists (b "localhost"), (b ":8080"). split; [reflexivity|]. split; [discriminate|]. split; [reflexivity|]. right. exists (b "8080"). split; reflexivity.
  - split; [now left|]. split; [|reflexivity]. intros c I. cbn in I. lia.
Qed.
(** Cases: from the root, a fragment, the empty address, more steps up than there are, a domain with its own scheme *)
Example c65_cases :
  map (assemble_absolute_url go_url (b "HTTPS://Example.com/a/b/c")) (map b ["/x/../y"; "#top"; ""; "../../../../z"; "."; "..";"d/..";"./"; "?q"]%string)
  = map b ["https://Example.com/y"; "https://Example.com/a/b/c#top"; "https://Example.com/a/b/c"; "https://Example.com/z";
           "https://Example.com/a/b/"; "https://Example.com/a/";"https://Example.com/a/b/";"https://Example.com/a/b/"; "https://Example.com/a/b/c?q"]%string.
Proof. vm_compute. reflexivity. Qed.
(** An address with scheme and host keeps them, whatever the domain is. *)
Theorem c65_absolute_partial : forall domain scheme host base s h path t,
  domain_is domain scheme host base -> simple_scheme s = true -> lowered s <> b "data" -> simple_host h ->
  simple_path path = true -> from_root path = true -> good_tail t ->
  exists t', tail_of t' /\ assemble_absolute_url go_url [] (s ++ b "://" ++ h ++ path ++ t) = lowered s ++ b "://" ++ h ++ path ++ t' /\
    assemble_absolute_url go_url domain (s ++ b "://" ++ h ++ path ++ t) = lowered s ++ b "://" ++ h ++ without_dots path ++ t'.
Proof. exact with_host_domain. Qed.
Print Assumptions c65_absolute_partial.
Example c65_absolute_ex : assemble_absolute_url go_url (b "example.com/dir/") (b "FTP://other.org:21/a/../b?x#y") = b "ftp://other.org:21/b?x#y".
Proof. vm_compute. reflexivity. Qed.
(** An address that starts with two slashes takes only the scheme of the domain. *)
Theorem c65_scheme_relative_partial : forall domain scheme host base h path t,
  domain_is domain scheme host base -> simple_host h -> simple_path path = true -> from_root path = true -> good_tail t ->
  exists t', tail_of t' /\ assemble_absolute_url go_url [] (b "//" ++ h ++ path ++ t) = b "//" ++ h ++ path ++ t' /\
    assemble_absolute_url go_url domain (b "//" ++ h ++ path ++ t) = scheme ++ b "://" ++ h ++ without_dots path ++ t'.
Proof. exact scheme_relative. Qed.
Print Assumptions c65_scheme_relative_partial.
Example c65_scheme_relative_ex : assemble_absolute_url go_url (b "https://example.com/dir/") (b "//cdn.org/a.js") = b "https://cdn.org/a.js".
Proof. vm_compute. reflexivity. Qed.
(** Addresses like mailto: and tel: do not depend on the domain, whatever the bytes behind the colon are. *)
Theorem c65_opaque : forall domain s rest, simple_scheme s = true -> from_root rest = false \/ rest = [] ->
  assemble_absolute_url go_url domain (s ++ 58 :: rest) = assemble_absolute_url go_url [] (s ++ 58 :: rest).
Proof. exact opaque_kept. Qed.
Print Assumptions c65_opaque.
Example c65_opaque_ex : simple_scheme (b "mailto") = true /\ from_root (b "a@example.com?subject=Hi there") = false
  /\ assemble_absolute_url go_url (b "example.com") (b "mailto:a@example.com?subject=Hi there") = b "mailto:a@example.com?subject=Hi%20there".
Proof. vm_compute. auto. Qed.
(** With empty segments the result is not the one of the RFC: the path loses a slash. *)
Theorem c65_empty_segment_refuted : exists domain path,
  domain_is domain (b "http") (b "example.com") [] /\ from_root path = true /\
  assemble_absolute_url go_url domain path <> b "http://example.com" ++ without_dots path.
Proof.
  exists (b "example.com"), (b "/..//b"). split; [|split; [reflexivity|vm_compute; discriminate]].
  apply (domain_bare (b "example.com") []); [|reflexivity|reflexivity]. exists (b "example.com"), []. repeat split; auto. discriminate.
Qed.
Print Assumptions c65_empty_segment_refuted.
(** A domain that net/url cannot read is ignored without an error. *)
Theorem c65_unreadable_domain_refuted : exists domain, domain <> [] /\ forall raw, assemble_absolute_url go_url domain raw = assemble_absolute_url go_url [] raw.
Proof. exists (b " example.com"). split; [discriminate|reflexivity]. Qed.
Print Assumptions c65_unreadable_domain_refuted.
