(** Model of class BBleaching, src/common/bleaching.cc:80-145: bleaching by halving steps. *)
From Verif Require Import Prelude Bytes Bleaching.

(** getBiggestValue, bleaching.cc:118-128. *)
Fixpoint biggest_value (votes : list Z) (biggest : Z) : Z :=
  match votes with
  | [] => biggest
  | v :: vs => biggest_value vs (if biggest <? v then v else biggest)
  end.
Definition getBiggestValue (allvotes : gmap str (list Z)) : Z :=
  fold_left (fun b kv => biggest_value kv.2 b) (sorted_items allvotes) 0.

(** isThereAmbiguity, bleaching.cc:130-144 (the third component is always 0 and unused). *)
Fixpoint tie_scan (l : list (str * Z)) (biggest : Z) (amb : bool) : bool * Z :=
  match l with
  | [] => (amb, biggest)
  | (_, v) :: l' =>
      if biggest <? v then tie_scan l' v false
      else if v =? biggest then tie_scan l' biggest true
      else tie_scan l' biggest amb
  end.
Definition isThereTie (candidates : gmap str Z) : bool * Z := tie_scan (sorted_items candidates) 0 false.

(** (int)std::pow(2,steps), bleaching.cc:88, 104: the power is exact; beyond int the conversion is undefined. *)
Definition pow2_int (steps : Z) : res Z := if steps <=? 30 then Ok (2 ^ steps) else UB UBCast.

(** The do-while, bleaching.cc:91-113. [fuel] bounds the number of rounds. *)
Fixpoint bbleach_loop (fuel : nat) (allvotes : gmap str (list Z)) (activated : bool) (biggest steps bleaching : Z) : res (gmap str Z) :=
  match fuel with
  | O => Hang
  | S fuel' =>
      let labels := counts_at bleaching allvotes in
      if negb activated then Ok labels
      else
        let ambiguity := isThereTie labels in
        let steps := steps + 1 in
        let* p := pow2_int steps in
        let piece := Z.quot biggest p in
        if piece =? 0 then Ok labels
        else
          let* bleaching' := (if 0 <? snd ambiguity then int_of (bleaching + piece) else int_of (bleaching - piece)) in
          if fst ambiguity && (0 <? snd ambiguity) then bbleach_loop fuel' allvotes activated biggest steps bleaching'
          else Ok labels
  end.
(** BBleaching::make, bleaching.cc:82-116 (the map it returns is never freed). *)
Definition bbleaching_make (allvotes : gmap str (list Z)) (activated : bool) : res (gmap str Z) :=
  let biggest := getBiggestValue allvotes in
  let* p := pow2_int 1 in
  bbleach_loop 31 allvotes activated biggest 1 (Z.quot biggest p).
