(** Model of class Bleaching, src/common/bleaching.cc:2-78. *)
From Verif Require Import Prelude Bytes.

(** Iteration over a std::map<std::string,_>: ascending key order. *)
Definition key_le {A} (x y : str * A) : Prop := str_le x.1 y.1.
Global Instance key_le_dec {A} : RelDecision (@key_le A).
Proof. intros x y. unfold key_le, str_le. apply _. Defined.
Definition sorted_items {A} (m : gmap str A) : list (str * A) := merge_sort key_le (map_to_list m).

(** Number of votes >= bleaching of one label, bleaching.cc:26-30. *)
Fixpoint count_ge (b : Z) (votes : list Z) : Z :=
  match votes with
  | [] => 0
  | v :: vs => (if b <=? v then 1 else 0) + count_ge b vs
  end.

(** The for loop of bleaching.cc:24-31: one counter per label. *)
Definition counts_at (b : Z) (allvotes : gmap str (list Z)) : gmap str Z := count_ge b <$> allvotes.

(** isThereAmbiguity, bleaching.cc:63-77: scan of the candidates in key order. *)
Fixpoint ambiguity_scan (confidence : Z) (l : list (str * Z)) (biggest : Z) (amb : bool) : bool * Z :=
  match l with
  | [] => (amb, biggest)
  | (_, v) :: l' =>
      if biggest <? v then ambiguity_scan confidence l' v false
      else if biggest - v <? confidence then ambiguity_scan confidence l' biggest true
      else ambiguity_scan confidence l' biggest amb
  end.
Definition isThereAmbiguity (candidates : gmap str Z) (confidence : Z) : bool * Z :=
  ambiguity_scan confidence (sorted_items candidates) 0 false.

(** The do-while of makeConfidenceless, bleaching.cc:23-35. [bleaching++] (line 33)
    overflows at INT_MAX. *)
Fixpoint bleach_loop (fuel : nat) (allvotes : gmap str (list Z)) (bleachingActivated : bool)
    (confidence bleaching : Z) : res (gmap str Z) :=
  match fuel with
  | O => Hang
  | S fuel' =>
      let labels := counts_at bleaching allvotes in
      if negb bleachingActivated then Ok labels
      else
        let* bleaching' := int_of (bleaching + 1) in
        let ambiguity := isThereAmbiguity labels confidence in
        if fst ambiguity && (1 <? snd ambiguity)
        then bleach_loop fuel' allvotes bleachingActivated confidence bleaching'
        else Ok labels
  end.

(** Fuel: one iteration more than the highest vote suffices (proved, never exhausted). *)
Fixpoint max_vote (votes : list Z) : Z :=
  match votes with [] => 0 | v :: vs => Z.max v (max_vote vs) end.
Definition bleach_fuel (allvotes : gmap str (list Z)) : nat :=
  S (Z.to_nat (max_vote (List.concat (snd <$> map_to_list allvotes)))).

Definition makeConfidenceless (allvotes : gmap str (list Z)) (bleachingActivated : bool)
    (confidence : Z) : res (gmap str Z) :=
  bleach_loop (bleach_fuel allvotes) allvotes bleachingActivated confidence 1.

(** makeWithConfidence, bleaching.cc:13-15. *)
Definition makeWithConfidence := makeConfidenceless.

(** Bleaching::make, bleaching.cc:4-11. *)
Definition bleaching_make (allvotes : gmap str (list Z)) (bleachingActivated searchBestConfidence : bool)
    (confidence : Z) : res (gmap str Z) :=
  if searchBestConfidence then makeWithConfidence allvotes bleachingActivated confidence
  else makeConfidenceless allvotes bleachingActivated confidence.

(** getBiggestCandidate, bleaching.cc:40-50. *)
Fixpoint biggest_scan (l : list (str * Z)) (biggest : Z) (label : str) : str :=
  match l with
  | [] => label
  | (k, v) :: l' => if biggest <=? v then biggest_scan l' v k else biggest_scan l' biggest label
  end.
Definition getBiggestCandidate (candidates : gmap str Z) : str :=
  biggest_scan (sorted_items candidates) 0 [].
