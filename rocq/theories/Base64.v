(** Model of class Base64, src/common/utils.cc:71-144. *)
From Verif Require Import Prelude Bytes.

(** Base64::charsMap, src/common/utils.cc:139-142. *)
Definition charsMap : str :=
  lit "ABCDEFGHIJKLMNOPQRSTUVWXYZabcdefghijklmnopqrstuvwxyz0123456789+/".

(** charsMap[index] with index in 0..63 (utils.cc:85 etc.; the index is always
    masked to 6 bits, so the default is never used). *)
Definition b64_char (index : Z) : ascii := nth (Z.to_nat index) charsMap "000"%char.

(** Base64::indexMap[c], built by createMap (utils.cc:130-136, 144).
    unordered_map::operator[] yields (and inserts) 0 for a missing key; the
    insertion is unobservable. *)
Fixpoint index_in (c : ascii) (l : str) (i : Z) : Z :=
  match l with
  | [] => 0
  | x :: l' => if decide (x = c) then i else index_in c l' (i + 1)
  end.
Definition indexMap (c : ascii) : Z := index_in c charsMap 0.

Definition pad : ascii := "="%char.

(** Base64::encode, utils.cc:74-109. The loop over i += 3 is recursion on the rest of
    the input; dataOut is pre-filled with '=' (line 80), so the [break]s of lines
    90 and 99 leave two, resp. one, '=' in place. Shifts are on promoted signed
    chars, as in the source. *)
Fixpoint encode (d : str) : str :=
  match d with
  | [] => []
  | [a] =>
      [ b64_char (Z.land (Z.shiftr (schar a) 2) 63);          (* line 84-85 *)
        b64_char (Z.land (Z.shiftl (schar a) 4) 48);          (* line 87-90 *)
        pad; pad ]
  | [a; b] =>
      [ b64_char (Z.land (Z.shiftr (schar a) 2) 63);
        b64_char (Z.lor (Z.land (Z.shiftl (schar a) 4) 48)
                        (Z.land (Z.shiftr (schar b) 4) 15));  (* line 93-94 *)
        b64_char (Z.land (Z.shiftl (schar b) 2) 60);          (* line 96-99 *)
        pad ]
  | a :: b :: c :: d' =>
      b64_char (Z.land (Z.shiftr (schar a) 2) 63) ::
      b64_char (Z.lor (Z.land (Z.shiftl (schar a) 4) 48)
                      (Z.land (Z.shiftr (schar b) 4) 15)) ::
      b64_char (Z.lor (Z.land (Z.shiftl (schar b) 2) 60)
                      (Z.land (Z.shiftr (schar c) 6) 3)) ::   (* line 102-103 *)
      b64_char (Z.land (schar c) 63) ::                       (* line 105-106 *)
      encode d'
  end.

(** Read dataIn[i + k] given the rest of the input from i on: index size() of a
    const string reads '\0', anything beyond is undefined. *)
Definition peek (rest : str) (k : nat) : res ascii :=
  match rest !! k with
  | Some c => Ok c
  | None => if Nat.eqb k (List.length rest) then Ok "000"%char else UB UBIndex
  end.

(** Write dataOut[k++]: undefined once the buffer is full. [room] = size - k. *)
Definition put (room : Z) (out : str) (z : Z) : res (Z * str) :=
  if 0 <? room then Ok (room - 1, out ++ [to_char z]) else UB UBIndex.

(** Decoding loop, utils.cc:116-122. [rest] is dataIn from index i, [room] the
    unwritten part of dataOut, which stays 0 (line 114) when the loop ends early. *)
Fixpoint decode_loop (fuel : nat) (rest : str) (room : Z) (out : str) : res str :=
  match rest with
  | [] => Ok (out ++ replicate (Z.to_nat room) "000"%char)
  | c0 :: _ =>
      match fuel with
      | O => Hang
      | S fuel' =>
          let* c1 := peek rest 1 in
          let* (room, out) := put room out
             (Z.lor (Z.land (Z.shiftl (indexMap c0) 2) 252)
                    (Z.land (Z.shiftr (indexMap c1) 4) 3)) in      (* line 117 *)
          let* c2 := peek rest 2 in
          if decide (c2 = pad)
          then Ok (out ++ replicate (Z.to_nat room) "000"%char)    (* line 118 *)
          else
          let* (room, out) := put room out
             (Z.lor (Z.land (Z.shiftl (indexMap c1) 4) 240)
                    (Z.land (Z.shiftr (indexMap c2) 2) 15)) in     (* line 119 *)
          let* c3 := peek rest 3 in
          if decide (c3 = pad)
          then Ok (out ++ replicate (Z.to_nat room) "000"%char)    (* line 120 *)
          else
          let* (room, out) := put room out
             (Z.lor (Z.land (Z.shiftl (indexMap c2) 6) 192)
                    (Z.land (indexMap c3) 63)) in                  (* line 121 *)
          decode_loop fuel' (drop 4 rest) room out
      end
  end.

(** Base64::decode, utils.cc:111-124. Line 113 reads dataIn[sizeIn-2] and, if that is
    not '=', dataIn[sizeIn-1]: for sizeIn < 2 the index is negative (a huge
    size_t), which is undefined. A negative [size] makes the std::string
    constructor of line 114 throw length_error. *)
Definition decode (d : str) : res str :=
  let sizeIn := len d in
  let* c2 := vget d (sizeIn - 2) in
  let* minus := (if decide (c2 = pad) then Ok 2
                 else let* c1 := vget d (sizeIn - 1) in
                      Ok (if decide (c1 = pad) then 1 else 0)) in
  let size := 3 * (sizeIn / 4) - minus in
  if size <? 0 then Throw ELengthError
  else decode_loop (List.length d) d size [].
