(** UTF-8 (RFC 3629), stated independently of the tables in json.hpp. *)
From Verif Require Import Prelude Bytes.
Local Open Scope Z_scope.

(** Unicode scalar values: code points that are not surrogates. *)
Definition scalar (cp : Z) : Prop := 0 <= cp < 0xD800 \/ 0xE000 <= cp <= 0x10FFFF.
Definition encode (cp : Z) : list Z :=
  if cp <? 0x80 then [cp]
  else if cp <? 0x800 then [0xC0 + cp / 64; 0x80 + cp mod 64]
  else if cp <? 0x10000 then [0xE0 + cp / 4096; 0x80 + cp / 64 mod 64; 0x80 + cp mod 64]
  else [0xF0 + cp / 262144; 0x80 + cp / 4096 mod 64; 0x80 + cp / 64 mod 64; 0x80 + cp mod 64].
(** The text is the encoding of some sequence of scalar values. *)
Definition is_utf8 (s : str) : Prop := exists cps, Forall scalar cps /\ byte <$> s = List.concat (encode <$> cps).
