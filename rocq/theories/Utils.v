(** Arithmetic helpers of src/common/utils.cc. *)
From Verif Require Import Prelude.

(** ipow, utils.cc:31-42. Multiplications are on signed long long: overflow is UB.
    64 iterations suffice for any non-negative exponent (exp is halved each time);
    for a negative exponent [exp >>= 1] converges to -1 and the loop never ends,
    which the exhausted fuel reports as [Hang]. *)
Fixpoint ipow_loop (fuel : nat) (result base exp : Z) : res Z :=
  match fuel with
  | O => Hang
  | S fuel' =>
      let* result := (if Z.odd exp then ll_of (result * base) else Ok result) in
      let exp := Z.shiftr exp 1 in
      if exp =? 0 then Ok result
      else let* base := ll_of (base * base) in ipow_loop fuel' result base exp
  end.
Definition ipow (base exp : Z) : res Z := ipow_loop 64 1 base exp.

(** calculateNumberOfRams, utils.cc:23-29 (C division truncates). *)
Definition calculateNumberOfRams (entrySize addressSize : Z) (completeAddressing : bool) : res Z :=
  if addressSize =? 0 then UB UBDivZero
  else
    let numberOfRAMS := Z.quot entrySize addressSize in
    let remain := Z.rem entrySize addressSize in
    if completeAddressing && (0 <? remain) then Ok (numberOfRAMS + 1) else Ok numberOfRAMS.

(** randint(min,max,·), utils.cc:1-5, given the value [r] returned by std::rand()
    (seeding is not modelled: [r] is arbitrary). The remainder by zero is undefined. *)
Definition randint (min max r : Z) : res Z :=
  let* span := int_of (max - min + 1) in
  if span =? 0 then UB UBDivZero else int_of (min + Z.rem r span).
