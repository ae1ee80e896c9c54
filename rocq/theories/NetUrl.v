(** The package net/url of the Go standard library as far as converter/url.go uses it. It is not part of /repo: these
    definitions are recalled (Go 1.23) and part of the trusted base wherever a theorem mentions [go_url]; the theorems about
    converter/url.go take the operations as a parameter (Url.url_ops). No proofs in this file. *)
From Coq Require Import List NArith ZArith Bool String.
From Verif Require Import Bytes.
Import ListNotations.
Open Scope N_scope.
Open Scope list_scope.

(** strings.Cut at the first occurrence of one byte *)
Fixpoint cut_at (sep : byte) (s : bytes) : option (bytes * bytes) :=
  match s with
  | [] => None
  | c :: t => if c =? sep then Some ([], t)
              else match cut_at sep t with Some (x, y) => Some (c :: x, y) | None => None end
  end.
Definition cut (sep : byte) (s : bytes) : bytes * bytes := match cut_at sep s with Some p => p | None => (s, []) end.
(** Cut at the last occurrence *)
Definition cut_last (sep : byte) (s : bytes) : option (bytes * bytes) :=
  match cut_at sep (rev s) with Some (x, y) => Some (rev y, rev x) | None => None end.

(** net/url: the type encoding *)
Inductive encoding := EncPath | EncUser | EncQuery | EncFragment | EncHost | EncZone.
Definition is_letter (c : byte) : bool := in_range 97 122 c || in_range 65 90 c.
Definition byte_in (l : bytes) (c : byte) : bool := existsb (N.eqb c) l.
(** net/url: shouldEscape *)
Definition should_escape (m : encoding) (c : byte) : bool :=
  if is_letter c || is_digit c then false
  else if (match m with EncHost | EncZone => true | _ => false end) && byte_in (b "!$&'()*+,;=:[]<>""") c then false
  else if byte_in (b "-_.~") c then false
  else if byte_in (b "$&+,/:;=?@") c then
    match m with
    | EncPath => c =? 63
    | EncUser => byte_in (b "@/?:") c
    | EncQuery => true
    | EncFragment => false
    | EncHost | EncZone => true
    end
  else if (match m with EncFragment => true | _ => false end) && byte_in (b "!()*") c then false
  else true.

Definition hex_digit (n : N) : byte := if n <? 10 then 48 + n else 55 + n.
(** net/url: escape *)
Definition escape_byte (m : encoding) (c : byte) : bytes :=
  if should_escape m c then
    (if (c =? 32) && (match m with EncQuery => true | _ => false end) then [43] else [37; hex_digit (c / 16); hex_digit (c mod 16)])
  else [c].
Definition url_escape (m : encoding) (s : bytes) : bytes := flat_map (escape_byte m) s.

Definition unhex (c : byte) : option N :=
  if is_digit c then Some (c - 48)
  else if in_range 97 102 c then Some (c - 87)
  else if in_range 65 70 c then Some (c - 55)
  else None.
(** net/url: unescape; None = error. The checks of the first Go loop and the decoding of the second are done together. *)
Fixpoint url_unescape (m : encoding) (s : bytes) : option bytes :=
  match s with
  | [] => Some []
  | c :: t =>
      if c =? 37 then
        match t with
        | h :: l :: r =>
            match unhex h, unhex l with
            | Some x, Some y =>
                let v := x * 16 + y in
                if (match m with EncHost => (x <? 8) && negb (v =? 37) | EncZone => negb (v =? 37) && negb (v =? 32) && should_escape EncHost v
                    | _ => false end)
                then None
                else option_map (cons v) (url_unescape m r)
            | _, _ => None
            end
        | _ => None
        end
      else if (c =? 43) && (match m with EncQuery => true | _ => false end) then option_map (cons 32) (url_unescape m t)
      else if (match m with EncHost | EncZone => (c <? 128) && should_escape m c | _ => false end) then None
      else option_map (cons c) (url_unescape m t)
  end.
(** net/url: validEncoded *)
Definition valid_encoded (m : encoding) (s : bytes) : bool :=
  forallb (fun c => byte_in (b "!$&'()*+,;=:@[]%") c || negb (should_escape m c)) s.

(** net/url: URL *)
Record url := {
  u_scheme : bytes;
  u_opaque : bytes;
  u_user : option (bytes * option bytes);
  u_host : bytes;
  u_path : bytes;
  u_raw_path : bytes;
  u_omit_host : bool;
  u_force_query : bool;
  u_raw_query : bytes;
  u_fragment : bytes;
  u_raw_fragment : bytes
}.
Definition empty_url : url := {| u_scheme := []; u_opaque := []; u_user := None; u_host := []; u_path := []; u_raw_path := [];
  u_omit_host := false; u_force_query := false; u_raw_query := []; u_fragment := []; u_raw_fragment := [] |}.
Definition is_some {A} (o : option A) : bool := match o with Some _ => true | None => false end.

(** net/url: setPath *)
Definition set_path (p : bytes) (u : url) : option url :=
  match url_unescape EncPath p with
  | None => None
  | Some path =>
      Some {| u_scheme := u_scheme u; u_opaque := u_opaque u; u_user := u_user u; u_host := u_host u;
              u_path := path; u_raw_path := if beqb p (url_escape EncPath path) then [] else p;
              u_omit_host := u_omit_host u; u_force_query := u_force_query u; u_raw_query := u_raw_query u;
              u_fragment := u_fragment u; u_raw_fragment := u_raw_fragment u |}
  end.
(** net/url: setFragment *)
Definition set_fragment (f : bytes) (u : url) : option url :=
  match url_unescape EncFragment f with
  | None => None
  | Some frag =>
      Some {| u_scheme := u_scheme u; u_opaque := u_opaque u; u_user := u_user u; u_host := u_host u; u_path := u_path u;
              u_raw_path := u_raw_path u; u_omit_host := u_omit_host u; u_force_query := u_force_query u;
              u_raw_query := u_raw_query u; u_fragment := frag;
              u_raw_fragment := if beqb f (url_escape EncFragment frag) then [] else f |}
  end.
(** net/url: EscapedPath, EscapedFragment *)
Definition escaped_part (m : encoding) (raw val : bytes) : bytes :=
  if negb (is_empty raw) && valid_encoded m raw && (match url_unescape m raw with Some v => beqb v val | None => false end)
  then raw
  else if beqb val (b "*") then b "*" else url_escape m val.
Definition escaped_path (u : url) : bytes := escaped_part EncPath (u_raw_path u) (u_path u).
Definition escaped_fragment (u : url) : bytes := escaped_part EncFragment (u_raw_fragment u) (u_fragment u).

(** net/url: getScheme; None = error, the scheme is empty when there is none *)
Fixpoint scheme_len (i : nat) (s : bytes) : option (option nat) :=
  match s with
  | [] => Some None
  | c :: t =>
      if is_letter c then scheme_len (S i) t
      else if is_digit c || byte_in (b "+-.") c then (match i with O => Some None | _ => scheme_len (S i) t end)
      else if c =? 58 then (match i with O => None | _ => Some (Some i) end)
      else Some None
  end.
Definition get_scheme (s : bytes) : option (bytes * bytes) :=
  match scheme_len O s with
  | None => None
  | Some None => Some ([], s)
  | Some (Some i) => Some (firstn i s, skipn (S i) s)
  end.
Definition to_lower (s : bytes) : bytes := map (fun c => if in_range 65 90 c then c + 32 else c) s.

(** net/url: validOptionalPort *)
Definition valid_port (p : bytes) : bool :=
  match p with [] => true | c :: t => (c =? 58) && forallb is_digit t end.
(** net/url: parseHost *)
Fixpoint index_of (p s : bytes) : option nat :=
  if has_prefix p s then Some O
  else match s with [] => None | _ :: t => option_map S (index_of p t) end.
Definition opt_app (x y : option bytes) : option bytes :=
  match x, y with Some a, Some c => Some (a ++ c) | _, _ => None end.
Definition parse_host (host : bytes) : option bytes :=
  if has_prefix (b "[") host then
    match cut_last 93 host with
    | None => None
    | Some (inside, port) =>
        if negb (valid_port port) then None
        else match index_of (b "%25") inside with
             | Some z => opt_app (url_unescape EncHost (firstn z inside))
                           (opt_app (url_unescape EncZone (skipn z inside)) (url_unescape EncHost (93 :: port)))
             | None => url_unescape EncHost host
             end
    end
  else
    let ok := match cut_last 58 host with Some (_, p) => valid_port (58 :: p) | None => true end in
    if ok then url_unescape EncHost host else None.
(** net/url: validUserinfo *)
Definition valid_userinfo (s : bytes) : bool :=
  forallb (fun c => is_letter c || is_digit c || byte_in (b "-._:~!$&'()*+,;=%@") c) s.
(** net/url: parseAuthority *)
Definition parse_authority (a : bytes) : option (option (bytes * option bytes) * bytes) :=
  match cut_last 64 a with
  | None => option_map (fun h => (None, h)) (parse_host a)
  | Some (info, host) =>
      match parse_host host with
      | None => None
      | Some h =>
          if negb (valid_userinfo info) then None
          else match cut_at 58 info with
               | None => option_map (fun u => (Some (u, None), h)) (url_unescape EncUser info)
               | Some (name, pw) =>
                   match url_unescape EncUser name, url_unescape EncUser pw with
                   | Some n, Some p => Some (Some (n, Some p), h)
                   | _, _ => None
                   end
               end
      end
  end.

Definition is_ctl (c : byte) : bool := (c <? 32) || (c =? 127).
(** net/url: parse (viaRequest = false) *)
Definition parse_no_fragment (raw : bytes) : option url :=
  if existsb is_ctl raw then None
  else if beqb raw (b "*") then
    Some {| u_scheme := []; u_opaque := []; u_user := None; u_host := []; u_path := b "*"; u_raw_path := [];
            u_omit_host := false; u_force_query := false; u_raw_query := []; u_fragment := []; u_raw_fragment := [] |}
  else match get_scheme raw with
  | None => None
  | Some (scheme, rest) =>
      let scheme := to_lower scheme in
      let force := has_suffix [63] rest && Nat.eqb (count_byte 63 rest) 1 in
      let '(rest, query) := if force then (removelast rest, []) else cut 63 rest in
      let mk opaque user host omit := {|
        u_scheme := scheme; u_opaque := opaque; u_user := user; u_host := host; u_path := []; u_raw_path := [];
        u_omit_host := omit; u_force_query := force; u_raw_query := query; u_fragment := []; u_raw_fragment := [] |} in
      if negb (has_prefix [47] rest) && negb (is_empty scheme) then Some (mk rest None [] false)
      else if negb (has_prefix [47] rest) && contains_byte 58 (fst (cut 47 rest)) then None
      else if (negb (is_empty scheme) || negb (has_prefix (b "///") rest)) && has_prefix (b "//") rest then
        let auth := skipn 2 rest in
        let '(auth, path) := match cut_at 47 auth with Some (x, y) => (x, 47 :: y) | None => (auth, []) end in
        match parse_authority auth with
        | None => None
        | Some (user, host) => set_path path (mk [] user host false)
        end
      else set_path rest (mk [] None [] (negb (is_empty scheme) && has_prefix [47] rest))
  end.
(** net/url: Parse *)
Definition url_parse (raw : bytes) : option url :=
  let '(u, frag) := cut 35 raw in
  match parse_no_fragment u with
  | None => None
  | Some x => if is_empty frag then Some x else set_fragment frag x
  end.

(** net/url: Userinfo.String *)
Definition user_string (u : bytes * option bytes) : bytes :=
  url_escape EncUser (fst u) ++ match snd u with Some p => 58 :: url_escape EncUser p | None => [] end.
(** net/url: URL.String *)
Definition url_string (u : url) : bytes :=
  let head := if is_empty (u_scheme u) then [] else u_scheme u ++ [58] in
  let body :=
    if negb (is_empty (u_opaque u)) then u_opaque u
    else
      let auth :=
        if negb (is_empty (u_scheme u)) || negb (is_empty (u_host u)) || is_some (u_user u) then
          if u_omit_host u && is_empty (u_host u) && negb (is_some (u_user u)) then []
          else
            (if negb (is_empty (u_host u)) || negb (is_empty (u_path u)) || is_some (u_user u) then [47; 47] else [])
            ++ (match u_user u with Some i => user_string i ++ [64] | None => [] end)
            ++ url_escape EncHost (u_host u)
        else [] in
      let path := escaped_path u in
      let slash := if negb (is_empty path) && negb (has_prefix [47] path) && negb (is_empty (u_host u)) then [47] else [] in
      let dot := if is_empty (head ++ auth ++ slash) && contains_byte 58 (fst (cut 47 path)) then [46; 47] else [] in
      auth ++ slash ++ dot ++ path in
  head ++ body
  ++ (if u_force_query u || negb (is_empty (u_raw_query u)) then 63 :: u_raw_query u else [])
  ++ (if is_empty (u_fragment u) then [] else 35 :: escaped_fragment u).

(** net/url: resolvePath. [str] is what was written behind the leading slash. *)
Definition resolve_step (st : bytes * bool) (elem : bytes) : bytes * bool :=
  let '(str, first) := st in
  if beqb elem [46] then (str, false)
  else if beqb elem [46; 46] then
    match cut_last 47 str with None => ([], true) | Some (x, _) => (x, first) end
  else ((if first then str else str ++ [47]) ++ elem, false).
Definition resolve_path (base ref : bytes) : bytes :=
  let full :=
    if is_empty ref then base
    else if negb (has_prefix [47] ref) then (match cut_last 47 base with Some (x, _) => x ++ [47] | None => [] end) ++ ref
    else ref in
  if is_empty full then []
  else
    let elems := split_on 47 full in
    let str := fst (fold_left resolve_step elems ([], true)) in
    let r := [47] ++ str ++ (if beqb (last elems []) [46] || beqb (last elems []) [46; 46] then [47] else []) in
    if has_prefix [47; 47] r then tl r else r.
(** net/url: ResolveReference *)
Definition with_base (scheme : bytes) (user : option (bytes * option bytes)) (host query frag raw_frag : bytes) (r : url) : url := {|
  u_scheme := scheme; u_opaque := u_opaque r; u_user := user; u_host := host; u_path := u_path r; u_raw_path := u_raw_path r;
  u_omit_host := u_omit_host r; u_force_query := u_force_query r; u_raw_query := query; u_fragment := frag;
  u_raw_fragment := raw_frag |}.
Definition or_same (o : option url) (d : url) : url := match o with Some u => u | None => d end.
Definition resolve_reference (base r : url) : url :=
  let scheme := if is_empty (u_scheme r) then u_scheme base else u_scheme r in
  let plain := with_base scheme (u_user r) (u_host r) (u_raw_query r) (u_fragment r) (u_raw_fragment r) r in
  if negb (is_empty (u_scheme r)) || negb (is_empty (u_host r)) || is_some (u_user r)
  then or_same (set_path (resolve_path (escaped_path r) []) plain) plain
  else if negb (is_empty (u_opaque r)) then
    {| u_scheme := scheme; u_opaque := u_opaque r; u_user := None; u_host := []; u_path := []; u_raw_path := u_raw_path r;
       u_omit_host := u_omit_host r; u_force_query := u_force_query r; u_raw_query := u_raw_query r;
       u_fragment := u_fragment r; u_raw_fragment := u_raw_fragment r |}
  else
    let same_doc := is_empty (u_path r) && negb (u_force_query r) && is_empty (u_raw_query r) in
    let query := if same_doc then u_raw_query base else u_raw_query r in
    let keep_frag := same_doc && is_empty (u_fragment r) in
    let frag := if keep_frag then u_fragment base else u_fragment r in
    let rfrag := if keep_frag then u_raw_fragment base else u_raw_fragment r in
    let u := with_base scheme (u_user base) (u_host base) query frag rfrag r in
    or_same (set_path (resolve_path (escaped_path base) (escaped_path r)) u) u.

Definition with_query (q : bytes) (u : url) : url :=
  with_base (u_scheme u) (u_user u) (u_host u) q (u_fragment u) (u_raw_fragment u) u.
(** net/url: QueryUnescape, QueryEscape *)
Definition query_unescape (s : bytes) : option bytes := url_unescape EncQuery s.
Definition query_escape (s : bytes) : bytes := url_escape EncQuery s.
