(** Theorems about addresses with paths of any characters and the domain (C65). Only statements; the specification is SpecDomain.v
    and SpecPath.v, the model is Url.v with NetUrl.v for the recalled package net/url. *)
From Coq Require Import List NArith Bool String Lia ZifyBool ZifyN.
From Verif Require Import Bytes NetUrl Url SpecUrl SpecDomain SpecPath DomainFacts4.
Import ListNotations.
Open Scope N_scope.
Open Scope list_scope.

(** ** C65 *)
(** A relative address with a path of any characters: with a domain it gets the scheme and the host of the domain, and its path is
    resolved as RFC 3986 says, from the path as it is written without a domain (path'), which stands for the same characters and is
    the same if nothing has to be encoded; query and fragment are the same as without a domain.
    Missing: empty segments (refuted), user names in the domain, other than unreserved characters in the path of the domain. *)
Theorem c65_any_relative_partial : forall domain scheme host base path t,
  domain_is domain scheme host base -> any_path path -> alone path -> any_tail t -> visible_ends (path ++ t) -> path ++ t <> b "#" ->
  exists dots path' t', tail_of t' /\ same_spelling path path' /\ ~ In 35 path' /\ ~ In 63 path' /\ (dots = [] \/ dots = b "./") /\
    assemble_absolute_url go_url [] (path ++ t) = dots ++ path' ++ t' /\
    (no_double_slash path' = true ->
       assemble_absolute_url go_url domain (path ++ t) = scheme ++ b "://" ++ host ++ resolved base path' ++ t') /\
    (clear_text path -> path <> b "%2A" -> path' = path).
Proof. exact with_domain_any. Qed.
Print Assumptions c65_any_relative_partial.
Example c65_any_relative_ex : any_path (b "../[é] x/./a;b=%2f(1).png") /\ alone (b "../[é] x/./a;b=%2f(1).png") /\ any_tail (b "?q=x y#z (1)")
  /\ visible_ends (b "../[é] x/./a;b=%2f(1).png?q=x y#z (1)")
  /\ assemble_absolute_url go_url (b "example.com/dir/sub/") (b "../[é] x/./a;b=%2f(1).png?q=x y#z (1)")
     = b "http://example.com/dir/%5B%C3%A9%5D%20x/a;b=/%281%29.png?q=x%20y#z%20%281%29"
  /\ assemble_absolute_url go_url (b "example.com/dir/sub/") (b "../a;b=%2f%c3/./@x") = b "http://example.com/dir/a;b=%2f%c3/@x".
Proof.
  split; [|split; [|split; [|split]]].
  - split; [|reflexivity]. intros c I. cbn in I. lia.
  - split; [cbn; lia|]. intros (r & E). discriminate.
  - split; [now left|]. split; [|reflexivity]. intros c I. cbn in I. lia.
  - split; intros c t E; unfold visible; [injection E as <- _; lia|]. apply (f_equal (@rev N)) in E. rewrite rev_app_distr in E. cbn in E. injection E as <- _. lia.
  - split; vm_compute; reflexivity.
Qed.
(** An address with its own host keeps it, and its scheme; one that starts with two slashes takes the scheme of the domain. Dots are
    removed from the path. *)
Theorem c65_any_hosted_partial : forall domain scheme host base p p' path t,
  domain_is domain scheme host base -> front p p' -> p <> [] -> any_path path -> from_root path = true -> any_tail t ->
  visible_ends (p ++ path ++ t) ->
  exists path' t', tail_of t' /\ same_spelling path path' /\ ~ In 35 path' /\ ~ In 63 path' /\
    assemble_absolute_url go_url [] (p ++ path ++ t) = p' ++ path' ++ t' /\
    (no_double_slash path' = true ->
       assemble_absolute_url go_url domain (p ++ path ++ t) = completed scheme p' ++ without_dots path' ++ t') /\
    (clear_text path -> path <> b "%2A" -> path' = path).
Proof. exact hosted_any. Qed.
Print Assumptions c65_any_hosted_partial.
Example c65_any_hosted_ex : front (b "//cdn.org:80") (b "//cdn.org:80") /\ any_path (b "/a b/../(c)")
  /\ completed (b "https") (b "//cdn.org:80") = b "https://cdn.org:80"
  /\ assemble_absolute_url go_url (b "https://example.com/dir/") (b "//cdn.org:80/a b/../(c)") = b "https://cdn.org:80/%28c%29".
Proof.
  split; [|split; [|split; vm_compute; reflexivity]].
  - apply (front_host (b "cdn.org:80")). exists (b "cdn.org"), (b ":80"). split; [reflexivity|]. split; [discriminate|]. split; [reflexivity|]. right. exists (b "80"). split; reflexivity.
  - split; [|reflexivity]. intros c I. cbn in I. lia.
Qed.
