(** What C108 says about JSON values handed to the constructors, independently of how the constructors read them. *)
From Coq Require Import SpecFloat.
From Verif Require Import Prelude Bytes Float32 Json Fs.

(** [p] is one of the pieces of [s] between dots. *)
Definition piece_of (p s : str) : Prop :=
  "."%char ∉ p /\ exists a b, s = a ++ p ++ b /\
    (a = [] \/ exists a', a = a' ++ ["."%char]) /\ (b = [] \/ exists b', b = "."%char :: b').
(** RAM contents: every piece that is not refused for being shorter than six characters has a length divisible by four. *)
Definition well_cut (s : str) : Prop := forall p, piece_of p s -> 6 <= len p -> len p mod 4 = 0.

(** An int base whose power b^n is computed without overflow, or is not computed at all. *)
Definition fits (b n : Z) : Prop := b = 2 \/ - 2 ^ 63 <= b ^ n < 2 ^ 63.

(** Numbers with a fraction or an exponent denote, cut, an int of no sign problems: they can be read as int and as unsigned. *)
Definition castable (f : f64) : Prop := exists z, f32_trunc f = Some z /\ 0 <= z <= INT_MAX.

(** Strings and arrays no longer than [n]. *)
Inductive short (n : Z) : json -> Prop :=
| Short_null : short n JNull
| Short_bool b : short n (JBool b)
| Short_int z : short n (JInt z)
| Short_float f : short n (JFloat f)
| Short_str s : len s <= n -> short n (JStr s)
| Short_arr l : len l <= n -> Forall (short n) l -> short n (JArr l)
| Short_obj l : Forall (fun kv => short n kv.2) l -> short n (JObj l).

(** Values without the features that make a constructor run into undefined behaviour: fractional numbers outside the ints, members
    "data" that are not cut well, bases whose powers overflow. [b]: the base used. A member "minScore" can be any number. *)
Inductive tame (b : Z) : json -> Prop :=
| Tame_null : tame b JNull
| Tame_bool x : tame b (JBool x)
| Tame_int z : tame b (JInt z)
| Tame_float f : castable f -> tame b (JFloat f)
| Tame_str s : tame b (JStr s)
| Tame_arr l : fits b (len l) -> Forall (tame b) l -> tame b (JArr l)
| Tame_obj l : Forall (fun kv => tame b kv.2 \/ kv.1 = lit "minScore" /\ exists f, kv.2 = JFloat f) l ->
    (forall s, (lit "data", JStr s) ∈ l -> well_cut s) ->
    (forall v, (lit "base", v) ∈ l -> v = JInt b \/ (forall z, v <> JInt z) /\ (forall f, v <> JFloat f)) ->
    tame b (JObj l).
