(** RFC 4648 base64, written from the RFC and independently of the code: the bit string is
    cut into groups of six bits, the last group is filled with zero bits, each group is
    replaced by its alphabet character, and '=' completes the last quantum of four. *)
From Verif Require Import Prelude Bytes.

(** Bits of a byte, most significant first. *)
Definition byte_bits (c : ascii) : list bool :=
  match c with Ascii b0 b1 b2 b3 b4 b5 b6 b7 => [b7; b6; b5; b4; b3; b2; b1; b0] end.
Definition bits_of (s : str) : list bool := List.concat (byte_bits <$> s).

(** Value of a group of bits, most significant first. *)
Definition bits_value (bs : list bool) : Z :=
  foldl (fun acc (b : bool) => 2 * acc + (if b then 1 else 0)) 0 bs.

(** Groups of six, the last one filled with zeros on the right. *)
Fixpoint sextets (bs : list bool) : list Z :=
  match bs with
  | b5 :: b4 :: b3 :: b2 :: b1 :: b0 :: rest => bits_value [b5; b4; b3; b2; b1; b0] :: sextets rest
  | [] => []
  | last => [ bits_value (last ++ replicate (6 - length last) false) ]
  end.

(** RFC 4648 table 1: 0-25 A-Z, 26-51 a-z, 52-61 0-9, 62 '+', 63 '/'. *)
Definition rfc_char (v : Z) : ascii :=
  if v <? 26 then to_char (65 + v)
  else if v <? 52 then to_char (97 + (v - 26))
  else if v <? 62 then to_char (48 + (v - 52))
  else if v =? 62 then "+"%char else "/"%char.

(** Number of '=' needed to reach a multiple of four characters. *)
Definition rfc_padding (n : Z) : Z := (4 - n mod 4) mod 4.

Definition rfc4648 (s : str) : str :=
  let cs := rfc_char <$> sextets (bits_of s) in
  cs ++ replicate (Z.to_nat (rfc_padding (len cs))) "="%char.

(** The 64 characters of the alphabet. *)
Definition in_alphabet (c : ascii) : Prop := exists v, 0 <= v < 64 /\ c = rfc_char v.
