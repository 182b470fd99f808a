(** BinInput objects a program can hold. *)
From Verif Require Import Prelude Bytes BinInput.

(** Bits beyond 2^34 are out of reach of [get] (its section is an int), so sizes are limited
    to 2^34 bits (a 2 GiB object). *)
Definition bin_limit : Z := 17179869184.

(** Everything obtainable from the constructors, [set] with any value and save/reload. *)
Inductive bin_made : bininput -> Prop :=
| made_size n : 0 <= n <= bin_limit -> bin_made (bin_of_size n)
| made_list l b : len l <= bin_limit -> bin_of_list l = Ok b -> bin_made b
| made_set b i v : bin_made b -> 0 <= i -> bin_made (snd (bin_set b i v))
| made_load b b' : bin_made b -> bin_of_data (bin_data b) = Ok b' -> bin_made b'.

(** Same with only zeros and ones written, as documented. *)
Definition is_bit (v : Z) : Prop := v = 0 \/ v = 1.
Inductive bin_clean : bininput -> Prop :=
| clean_size n : 0 <= n <= bin_limit -> bin_clean (bin_of_size n)
| clean_list l b : len l <= bin_limit -> Forall is_bit l -> bin_of_list l = Ok b -> bin_clean b
| clean_set b i v : bin_clean b -> 0 <= i -> is_bit v -> bin_clean (snd (bin_set b i v))
| clean_load b b' : bin_clean b -> bin_of_data (bin_data b) = Ok b' -> bin_clean b'.
