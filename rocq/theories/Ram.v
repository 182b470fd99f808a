(** Model of class RAM, src/models/wisard/ram.cc (the JSON constructor is in RamData.v). *)
From Verif Require Import Prelude Bytes Utils BinInput.

(** Members, ram.cc:151-154. [positions] is a std::unordered_map<addr_t,content_t>. *)
Record ram := Ram {
  r_addresses : list Z;
  r_positions : gmap Z Z;
  r_ignoreZero : bool;
  r_base : Z }.

(** Iteration order of an unordered_map: any enumeration of its entries. *)
Definition iteration := gmap Z Z -> list (Z * Z).

Definition limit_exn : exn := EWisard "The base power to addressSize passed the limit of 2^64!".
Definition pos_exn : exn := EWisard "The input data has a value bigger than base of addresing!".

(** checkLimitAddressSize, ram.cc:166-172: limit = (addr_t)-1. *)
Definition checkLimitAddressSize (addressSize basein : Z) : res unit :=
  if basein =? 2 then
    if 64 <? addressSize then Throw limit_exn else Ok tt
  else
    let* p := ipow basein addressSize in
    if (W64 - 1) <? u64 p then Throw limit_exn else Ok tt.

(** RAM(indexes, ignoreZero, base), ram.cc:19-21. *)
Definition ram_new (indexes : list Z) (ignoreZero : bool) (base : Z) : res ram :=
  let* _ := checkLimitAddressSize (s32 (len indexes)) base in
  Ok (Ram indexes ∅ ignoreZero base).

(** checkPos, ram.cc:174-178. *)
Definition checkPos (code base : Z) : res unit :=
  if base <=? code then Throw pos_exn else Ok tt.

(** getIndex, ram.cc:110-121: [bin] and [base] are converted to addr_t (mod 2^64). *)
Fixpoint getIndex_loop (addrs : list Z) (base : Z) (im : image) (index p : Z) : res Z :=
  match addrs with
  | [] => Ok index
  | a :: addrs' =>
      let* bin := im_get im a in
      let* _ := checkPos bin base in
      getIndex_loop addrs' base im (u64 (index + u64 bin * p)) (u64 (p * u64 base))
  end.
Definition getIndex (r : ram) (im : image) : res Z :=
  getIndex_loop (r_addresses r) (r_base r) im 0 1.

Definition with_positions (r : ram) (m : gmap Z Z) : ram :=
  Ram (r_addresses r) m (r_ignoreZero r) (r_base r).

(** train, ram.cc:123-133. *)
Definition ram_train (r : ram) (im : image) : eff ram unit :=
  match getIndex r im with
  | Ok index =>
      match r_positions r !! index with
      | None => (Ok tt, with_positions r (<[index := 1]> (r_positions r)))
      | Some v =>
          match int_of (v + 1) with
          | Ok v' => (Ok tt, with_positions r (<[index := v']> (r_positions r)))
          | _ => (UB UBOverflow, r)
          end
      end
  | Throw e => (Throw e, r)
  | UB u => (UB u, r)
  | Hang => (Hang, r)
  end.

(** untrain, ram.cc:39-45 (vector<int> images only). *)
Definition ram_untrain (r : ram) (im : image) : eff ram unit :=
  match getIndex r im with
  | Ok index =>
      match r_positions r !! index with
      | None => (Ok tt, r)
      | Some v =>
          match int_of (v - 1) with
          | Ok v' => (Ok tt, with_positions r (<[index := v']> (r_positions r)))
          | _ => (UB UBOverflow, r)
          end
      end
  | Throw e => (Throw e, r)
  | UB u => (UB u, r)
  | Hang => (Hang, r)
  end.

(** getVote, ram.cc:135-147. *)
Definition getVote (r : ram) (im : image) : res Z :=
  let* index := getIndex r im in
  if r_ignoreZero r && (index =? 0) then Ok 0
  else match r_positions r !! index with None => Ok 0 | Some v => Ok v end.

(** convertToBase, ram.cc:156-164: the address is converted to int (parameter
    [const int number]); C remainder and division. *)
Fixpoint digits_c (n : nat) (number base : Z) : list Z :=
  match n with
  | O => []
  | S n' => Z.rem number base :: digits_c n' (Z.quot number base) base
  end.
Definition convertToBase (r : ram) (address : Z) : res (list Z) :=
  if (r_base r =? 0) && negb (Nat.eqb (List.length (r_addresses r)) 0) then UB UBDivZero
  else Ok (digits_c (List.length (r_addresses r)) (s32 address) (r_base r)).

(** Inner loop of getMentalImage, ram.cc:58-67: add the content where the digit is > 0
    (the size()==0 branch of line 59 is dead: every piece was resized at line 50). *)
Fixpoint add_digits (pieces : list (Z * Z)) (digits : list Z) (content : Z) : res (list (Z * Z)) :=
  match pieces, digits with
  | (a, acc) :: ps, d :: ds =>
      let* acc' := (if 0 <? d then int_of (acc + content) else Ok acc) in
      let* ps' := add_digits ps ds content in
      Ok ((a, acc') :: ps')
  | _, _ => Ok pieces
  end.

(** Loop over the stored positions, ram.cc:55-68. *)
Fixpoint mental_loop (r : ram) (entries : list (Z * Z)) (pieces : list (Z * Z)) : res (list (Z * Z)) :=
  match entries with
  | [] => Ok pieces
  | (a, v) :: es =>
      if a =? 0 then mental_loop r es pieces
      else
        let* ds := convertToBase r a in
        let* pieces' := add_digits pieces ds v in
        mental_loop r es pieces'
  end.

(** getMentalImage, ram.cc:47-70: pairs (address, intensity). *)
Definition ram_mental (iter : iteration) (r : ram) : res (list (Z * Z)) :=
  mental_loop r (iter (r_positions r)) ((fun a => (a, 0)) <$> r_addresses r).
