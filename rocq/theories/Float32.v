(** C [float] arithmetic: IEEE-754 binary32, round to nearest even, through the
    standard library's executable SpecFloat (precision 24, emax 128). *)
From Coq Require Import SpecFloat.
From Verif Require Import Prelude.

Definition f32 := spec_float.
Definition f32_add : f32 -> f32 -> f32 := SFadd 24 128.
Definition f32_sub : f32 -> f32 -> f32 := SFsub 24 128.
Definition f32_mul : f32 -> f32 -> f32 := SFmul 24 128.
Definition f32_div : f32 -> f32 -> f32 := SFdiv 24 128.
Definition f32_leb : f32 -> f32 -> bool := SFleb.   (* x <= y *)
Definition f32_ltb : f32 -> f32 -> bool := SFltb.   (* x < y *)
Definition f32_eqb : f32 -> f32 -> bool := SFeqb.
(** Conversion integer -> float. *)
Definition f32_of_Z (z : Z) : f32 := binary_normalize 24 128 z 0 false.
Definition f32_zero : f32 := f32_of_Z 0.
Definition f32_one : f32 := f32_of_Z 1.

(** Truncation toward zero (conversion float -> integer); [None] for inf / NaN. *)
Definition f32_trunc (f : f32) : option Z :=
  match f with
  | S754_zero _ => Some 0
  | S754_infinity _ | S754_nan => None
  | S754_finite s m e =>
      let v := if 0 <=? e then Z.pos m * 2 ^ e else Z.pos m / 2 ^ (- e) in
      Some (if s then - v else v)
  end.
Definition f32_finite (f : f32) : bool :=
  match f with S754_zero _ | S754_finite _ _ _ => true | _ => false end.

(** C [double]: IEEE-754 binary64. *)
Definition f64 := spec_float.
(** Conversion float -> double (exact): the mantissa is shifted to its 53 bit form. *)
Definition f64_of_f32 (f : f32) : f64 :=
  match f with
  | S754_finite s m e => let '(m, e) := shl_align m e (fexp 53 1024 (Z.pos (digits2_pos m) + e)) in S754_finite s m e
  | _ => f
  end.
(** Conversion double -> float, round to nearest even (too large: infinity, as IEEE-754 hardware does). *)
Definition f32_of_f64 (f : f64) : f32 :=
  match f with
  | S754_finite s m e => binary_round 24 128 s m e
  | _ => f
  end.
(** The bit patterns of float and double: canonical mantissa and exponent, exponent in range. *)
Definition is_f32 (f : f32) : Prop := valid_binary 24 128 f = true.
Definition is_f64 (f : f64) : Prop := valid_binary 53 1024 f = true.
