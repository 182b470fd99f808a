(** Model of class Synthesizer, src/synthetic_data/synthesizers.cc. *)
From Verif Require Import Prelude Utils.

(** Members, synthesizers.cc:30-31: one map index -> 1 per pixel, and the largest intensity. *)
Record synth := Synth { sy_cube : list (gmap Z Z); sy_maxData : Z }.

(** maxData, synthesizers.cc:35-40. *)
Definition synth_max (mentalImage : list Z) : Z := foldl (fun m v => if m <? v then v else m) 0 mentalImage.

(** synthesizers.cc:49-53: [left] iterations remain, from index j; the shuffled vector of
    indexes (lines 44-47) is never read. *)
Fixpoint synth_fill (left : nat) (j intensity : Z) (m : gmap Z Z) : res (gmap Z Z) :=
  match left with
  | O => Ok m
  | S left' =>
      if intensity =? 0 then Ok m
      else let* intensity' := int_of (intensity - 1) in
           synth_fill left' (j + 1) intensity' (<[j := 1]> m)
  end.
(** makeCube, synthesizers.cc:33-55, and the constructor (lines 4-7). *)
Definition synth_new (mentalImage : list Z) : res synth :=
  let maxData := synth_max mentalImage in
  let* cube := rmapM (fun v => synth_fill (Z.to_nat maxData) 0 v ∅) mentalImage in
  Ok (Synth cube maxData).

(** make, synthesizers.cc:9-23, given the value [r] of std::rand(). *)
Definition synth_make (s : synth) (r : Z) : res (list Z) :=
  let* top := int_of (sy_maxData s - 1) in
  let* index := randint 0 top r in
  Ok ((fun m => default 0 (m !! index)) <$> sy_cube s).
