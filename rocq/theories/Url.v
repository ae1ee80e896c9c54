(** Model of converter/url.go. No proofs in this file.

    The package net/url is a parameter: a record of the operations that the code calls. NetUrl.v gives recalled definitions. *)
From Coq Require Import List NArith Bool String.
From Verif Require Import Bytes NetUrl.
Import ListNotations.
Open Scope N_scope.
Open Scope list_scope.

Record url_ops := {
  url_t : Type;
  op_parse : bytes -> option url_t;                (* url.Parse *)
  op_scheme : url_t -> bytes;                      (* u.Scheme *)
  op_host : url_t -> bytes;                        (* u.Host *)
  op_query : url_t -> bytes;                       (* u.RawQuery *)
  op_set_query : bytes -> url_t -> url_t;          (* u.RawQuery = q *)
  op_resolve : url_t -> url_t -> url_t;            (* base.ResolveReference(u) *)
  op_string : url_t -> bytes;                      (* u.String() *)
  op_query_unescape : bytes -> option bytes;       (* url.QueryUnescape *)
  op_query_escape : bytes -> bytes                 (* url.QueryEscape *)
}.
(** The recalled package *)
Definition go_url : url_ops := {|
  url_t := url; op_parse := url_parse; op_scheme := u_scheme; op_host := u_host; op_query := u_raw_query;
  op_set_query := with_query; op_resolve := resolve_reference; op_string := url_string;
  op_query_unescape := query_unescape; op_query_escape := query_escape |}.

(** converter/url.go:8-16  percentEncodingReplacer (single bytes) *)
Definition percent_byte (c : byte) : bytes :=
  if c =? 32 then b "%20" else if c =? 91 then b "%5B" else if c =? 93 then b "%5D" else if c =? 40 then b "%28"
  else if c =? 41 then b "%29" else if c =? 60 then b "%3C" else if c =? 62 then b "%3E" else [c].
Definition percent_replace (s : bytes) : bytes := flat_map percent_byte s.

Section url.
Variable ops : url_ops.

(** converter/url.go:18-37  parseBaseDomain *)
Definition parse_with_host (raw : bytes) : option (url_t ops) :=
  match op_parse ops raw with
  | Some u => if is_empty (op_host ops u) then None else Some u
  | None => None
  end.
Definition parse_base_domain (raw : bytes) : option (url_t ops) :=
  if is_empty raw then None
  else match parse_with_host raw with
       | Some u => Some u
       | None => parse_with_host (b "http://" ++ raw)
       end.

(** converter/url.go:82-89  decodeAndEncode *)
Definition decode_and_encode (s : bytes) : bytes :=
  match op_query_unescape ops s with Some v => op_query_escape ops v | None => s end.
(** converter/url.go:91-117  ParseAndEncodeQuery *)
Definition encode_part (part : bytes) : bytes :=
  match cut_at 61 part with
  | None => decode_and_encode part
  | Some (k, v) => if is_empty v then decode_and_encode k ++ [61]
                   else decode_and_encode k ++ [61] ++ decode_and_encode v
  end.
Definition parse_and_encode_query (q : bytes) : bytes :=
  if is_empty q then [] else join [38] (map encode_part (split_on 38 q)).

(** converter/url.go:38-78  defaultAssembleAbsoluteURL; the tag name is not used *)
Definition assemble_absolute_url (domain raw : bytes) : bytes :=
  let raw := trim_space raw in
  if beqb raw [35] then raw
  else
    let raw := replace_all [cNL] (b "%0A") raw in
    let raw := replace_all [cTAB] (b "%09") raw in
    match op_parse ops raw with
    | None => percent_replace raw
    | Some u =>
        if beqb (op_scheme ops u) (b "data") then percent_replace raw
        else
          let q := replace_all [43] (b "%20") (parse_and_encode_query (op_query ops u)) in
          let u := op_set_query ops q u in
          let u := match parse_base_domain domain with Some base => op_resolve ops base u | None => u end in
          percent_replace (op_string ops u)
    end.
End url.
