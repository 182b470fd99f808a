(** Characters, strings and the std::string operations used by the package. *)
From Verif Require Import Prelude.

(** A std::string is its list of bytes. *)
Notation str := (list ascii) (only parsing).
(** String literal. *)
Definition lit (s : string) : str := String.list_ascii_of_string s.

(** Unsigned value of a byte, 0..255. *)
Definition byte (c : ascii) : Z := Z.of_N (N_of_ascii c).
(** Value of a [char] after integral promotion: [char] is signed on x86-64. *)
Definition schar (c : ascii) : Z := if byte c <? 128 then byte c else byte c - 256.
(** Conversion int -> char (two's complement truncation). *)
Definition to_char (z : Z) : ascii := ascii_of_N (Z.to_N (z mod 256)).

(** std::string::operator< (char_traits<char>::compare is memcmp: unsigned bytes,
    then the shorter string is smaller). *)
Fixpoint str_leb (a b : str) : bool :=
  match a, b with
  | [], _ => true
  | _ :: _, [] => false
  | x :: a', y :: b' =>
      if byte x <? byte y then true
      else if byte x =? byte y then str_leb a' b' else false
  end.
Definition str_le (a b : str) : Prop := str_leb a b = true.
Definition str_lt (a b : str) : Prop := str_leb b a = false.

(** [s.substr(pos,n)]: throws out_of_range when pos > size; n is clipped.
    Both arguments are size_t, a negative int is a huge value. *)
Definition substr (s : str) (pos n : Z) : res str :=
  let pos := u64 pos in
  let n := u64 n in
  if len s <? pos then Throw EOutOfRange
  else Ok (if len s <=? n then drop (Z.to_nat pos) s
           else take (Z.to_nat n) (drop (Z.to_nat pos) s)).

(** [s.find(c,pos)] with npos = 2^64-1. *)
Definition npos : Z := 18446744073709551615.
Fixpoint find_char_from (c : ascii) (s : str) (i : Z) : Z :=
  match s with
  | [] => npos
  | x :: s' => if decide (x = c) then i else find_char_from c s' (i + 1)
  end.
Definition find_char (c : ascii) (s : str) (pos : Z) : Z :=
  let pos := u64 pos in
  if len s <? pos then npos else find_char_from c (drop (Z.to_nat pos) s) pos.

(** [s.find(pat)]: first occurrence of a substring. *)
Fixpoint is_prefix (p s : str) : bool :=
  match p, s with
  | [], _ => true
  | _ :: _, [] => false
  | x :: p', y :: s' => if decide (x = y) then is_prefix p' s' else false
  end.
Fixpoint find_str_from (p s : str) (i : Z) : Z :=
  if is_prefix p s then i
  else match s with [] => npos | _ :: s' => find_str_from p s' (i + 1) end.
Definition find_str (p s : str) : Z := find_str_from p s 0.

(** [std::getline(stream, out, delim)]: characters up to the delimiter (which is
    consumed) or to the end; returns the field, the rest and whether the end of
    file was hit (eofbit). *)
Fixpoint getline (delim : ascii) (s : str) : str * str * bool :=
  match s with
  | [] => ([], [], true)
  | x :: s' =>
      if decide (x = delim) then ([], s', false)
      else let '(f, r, e) := getline delim s' in (x :: f, r, e)
  end.

(** convertToBytes<T> (src/common/utils.cc:44-50): the object representation of
    an unsigned value on n bytes, little endian (x86-64). Signed values are first
    reduced modulo 2^(8n) (two's complement). *)
Fixpoint le_bytes (n : nat) (v : Z) : str :=
  match n with
  | O => []
  | S n' => to_char (v mod 256) :: le_bytes n' (v / 256)
  end.

(** convertToValue<T> (src/common/utils.cc:52-58), unsigned reading. *)
Fixpoint le_value (s : str) : Z :=
  match s with
  | [] => 0
  | c :: s' => byte c + 256 * le_value s'
  end.

(** convertToBytes<addr_t>, convertToBytes<content_t>, convertToBytes<char>
    (src/common/utils.cc:44-50): sizeof = 8, 4, 1. *)
Definition bytes_of_addr (a : Z) : str := le_bytes 8 (u64 a).
Definition bytes_of_content (v : Z) : str := le_bytes 4 (u32 v).
(** convertToValue<addr_t> / <content_t> (src/common/utils.cc:52-58) on a string of
    exactly sizeof(T) bytes. *)
Definition addr_of_bytes (s : str) : Z := le_value s.
Definition content_of_bytes (s : str) : Z := s32 (le_value s).

(** std::to_string(int) for a non-negative argument. *)
Fixpoint digits_fuel (fuel : nat) (n : Z) (acc : str) : str :=
  match fuel with
  | O => acc
  | S f =>
      let acc := to_char (48 + n mod 10) :: acc in
      if n <? 10 then acc else digits_fuel f (n / 10) acc
  end.
Definition to_string (n : Z) : str :=
  if n <? 0 then lit "-" ++ digits_fuel 20 (- n) [] else digits_fuel 20 n [].
