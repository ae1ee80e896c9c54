(** Theorems about paths and fragments of addresses (C74). Only statements; the specification is SpecPath.v, the model is Url.v with
    NetUrl.v for the recalled package net/url. *)
From Coq Require Import List NArith Bool String Lia ZifyBool ZifyN.
From Verif Require Import Bytes NetUrl Url SpecUrl SpecDomain SpecPath UrlFacts PathFacts.
Import ListNotations.
Open Scope N_scope.
Open Scope list_scope.

(** ** C74 *)
(** Without a domain, a path of any characters (spaces, brackets, UTF-8, percent triples) stands for the same afterwards. What is
    before it stays the same, with the scheme in small letters; a path whose first segment now has a colon gets a dot segment before it.
    A path that needs no encoding is written as it was, percent triples included (except %2A alone, which becomes a star).
    Missing: user names and hosts with percent triples, brackets or UTF-8, white space and UTF-8 at the ends, and addresses like mailto. *)
Theorem c74_path_partial : forall p p' path t,
  front p p' -> any_path path -> (p = [] -> alone path) -> (p <> [] -> from_root path = true) -> any_tail t ->
  visible_ends (p ++ path ++ t) -> p ++ path ++ t <> b "#" ->
  exists dots path' t', assemble_absolute_url go_url [] (p ++ path ++ t) = p' ++ dots ++ path' ++ t' /\ tail_of t' /\
    same_spelling path path' /\ ~ In 35 path' /\ ~ In 63 path' /\
    (dots = [] /\ (p = [] -> ~ In 58 (before 47 path')) \/ dots = b "./" /\ p = [] /\ In 58 (before 47 path')) /\
    (clear_text path -> path <> b "%2A" -> path' = path).
Proof. exact path_kept. Qed.
Print Assumptions c74_path_partial.
Example c74_path_ex : front (b "HTTP://example.com:80") (b "http://example.com:80") /\ any_path (b "/a b/(c)%2f[é].html") /\ any_tail (b "?q=x y#z (1)")
  /\ visible_ends (b "HTTP://example.com:80/a b/(c)%2f[é].html?q=x y#z (1)")
  /\ assemble_absolute_url go_url [] (b "HTTP://example.com:80/a b/(c)%2f[é].html?q=x y#z (1)")
     = b "http://example.com:80/a%20b/%28c%29/%5B%C3%A9%5D.html?q=x%20y#z%20%281%29".
Proof.
  split; [|split; [|split; [|split]]].
  - apply (front_full (b "HTTP") (b "example.com:80")); [reflexivity|discriminate|]. exists (b "example.com"), (b ":80").
    split; [reflexivity|]. split; [discriminate|]. split; [reflexivity|]. right. exists (b "80"). split; reflexivity.
  - split; [|reflexivity]. intros c I. cbn in I. lia.
  - split; [now left|]. split; [|reflexivity]. intros c I. cbn in I. lia.
  - split; intros c t E; unfold visible; [injection E as <- _; lia|]. apply (f_equal (@rev N)) in E. rewrite rev_app_distr in E. cbn in E. injection E as <- _. lia.
  - vm_compute. reflexivity.
Qed.
(** The dot segment, and a slash that was encoded: with another character to encode in the path it becomes a slash, also above *)
Example c74_cases : map (assemble_absolute_url go_url []) (map b ["a%3Ab(c)"; "a%3Ab c"; "a%2Fb"; "*"; "/"; "x y/..%20/z"; "%2A"]%string)
  = map b ["a%3Ab%28c%29"; "./a:b%20c"; "a%2Fb"; "*"; "/"; "x%20y/..%20/z"; "*"]%string.
Proof. vm_compute. reflexivity. Qed.
Example c74_clear_ex : clear_text (b "/a%2fb;x=1/%c3%A9") /\ assemble_absolute_url go_url [] (b "//example.com/a%2fb;x=1/%c3%A9#(") = b "//example.com/a%2fb;x=1/%c3%A9#%28".
Proof. split; [|vm_compute; reflexivity]. intros c I. cbn in I. unfold unreserved. cbn. lia. Qed.
(** With any domain, a fragment stands for the same afterwards, for every address that net/url reads; one that needs no encoding stays as it
    was. *)
Theorem c74_fragment : forall domain raw u, (forall c, In c raw -> c < 256) ->
  url_parse (prepared_raw raw) = Some u -> u_scheme u <> b "data" -> after 35 (prepared_raw raw) <> [] ->
  same_spelling (after 35 (prepared_raw raw)) (after 35 (assemble_absolute_url go_url domain raw)) /\
  (clear_text (after 35 (prepared_raw raw)) -> after 35 (assemble_absolute_url go_url domain raw) = after 35 (prepared_raw raw)).
Proof. exact fragment_kept. Qed.
Print Assumptions c74_fragment.
Example c74_fragment_ex : exists u, url_parse (prepared_raw (b " x y#a%2F(b) c#d ")) = Some u /\ after 35 (prepared_raw (b " x y#a%2F(b) c#d ")) = b "a%2F(b) c#d"
  /\ assemble_absolute_url go_url (b "example.com") (b " x y#a%2F(b) c#d ") = b "http://example.com/x%20y#a/%28b%29%20c%23d".
Proof. eexists. vm_compute. repeat split; reflexivity. Qed.
(** The segments are not kept: a slash that was encoded separates segments afterwards if another character had to be encoded. *)
Theorem c74_segments_refuted : exists raw, any_path raw /\ alone raw /\
  List.length (split_on 47 (assemble_absolute_url go_url [] raw)) <> List.length (split_on 47 raw).
Proof.
  exists (b "a%2Fb c"). split; [|split].
  - split; [|reflexivity]. intros c I. cbn in I. lia.
  - split; [cbn; lia|]. intros (r & E). discriminate.
  - vm_compute. discriminate.
Qed.
Print Assumptions c74_segments_refuted.
