(** Specification vocabulary for KernelCanvas, independent of its loops: column statistics,
    normalised points, distances, sets of nearest kernels. *)
From Coq Require Import SpecFloat.
From Verif Require Import Prelude Float32 Kernel.

(** Every row has the declared dimension. *)
Definition shaped (dim : Z) (seq : list (list f64)) : Prop := Forall (fun row => len row = dim) seq.
(** Column j of the sequence. *)
Definition column (seq : list (list f64)) (j : nat) : list f64 := (fun row => nth j row S754_nan) <$> seq.
(** Its mean and its standard deviation, in double arithmetic. *)
Definition mean_of (xs : list f64) : f64 := f64_div (foldl f64_add f64_zero xs) (f64_of_Z (len xs)).
Definition square (x : f64) : f64 := f64_mul x x.
Definition std_of (xs : list f64) : f64 :=
  f64_sqrt (f64_div (foldl (fun a x => f64_add a (square (f64_sub (mean_of xs) x))) f64_zero xs) (f64_of_Z (len xs))).
(** The normalised point of a row: one coordinate per column. *)
Definition normalised (tanh : f64 -> f64) (seq : list (list f64)) (row : list f64) : list f64 :=
  imap (fun j x => tanh (f64_div (f64_sub (mean_of (column seq j)) x) (std_of (column seq j)))) row.
(** A point written three times: its current, previous and next copies. *)
Definition thrice (p : list f64) : list f64 := p ++ p ++ p.
(** Euclidean distance. *)
Definition distance (p q : list f64) : f64 :=
  f64_sqrt (foldl (fun a '(x, y) => f64_add a (square (f64_sub x y))) f64_zero (zip p q)).

(** [S] is a set of [count] kernels none of which is farther from [p] than a kernel left out. *)
Definition nearest (kernels : list (list f64)) (p : list f64) (count : Z) (S : list Z) : Prop :=
  NoDup S /\ len S = count /\ Forall (fun k => 0 <= k < len kernels) S /\
  forall k k' q q', k ∈ S -> k' ∉ S -> kernels !! Z.to_nat k = Some q -> 0 <= k' -> kernels !! Z.to_nat k' = Some q' ->
    f64_ltb (distance p q') (distance p q) = false.

(** What std::sort guarantees: for a strict weak order, a permutation in which no element is
    preceded by a greater one. *)
Definition sorts (srt : list (Z * f64) -> list (Z * f64)) : Prop :=
  forall l, strict_weak kc_less l = true ->
    Permutation l (srt l) /\
    forall i j a b, (i < j)%nat -> srt l !! i = Some a -> srt l !! j = Some b -> kc_less b a = false.
