(** Model of class BinInput, src/data/bininput.cc, and of the template parameter T
    (std::vector<int> or BinInput) of the training/classification code. *)
From Verif Require Import Prelude Bytes Base64.

(** Members, bininput.cc:54-55. [b_remain] is a (signed) char. *)
Record bininput := BinInput { b_remain : Z; b_input : str }.

(** setConfig, bininput.cc:57-60; also BinInput(index_size_t), lines 4-6.
    Allocation failure for astronomically large sizes is not modelled. *)
Definition bin_of_size (size : Z) : bininput :=
  BinInput (if size mod 8 =? 0 then 0 else 8 - size mod 8)
           (replicate (Z.to_nat (size / 8 + (if size mod 8 =? 0 then 0 else 1))) "000"%char).

(** size(), bininput.cc:44-46: index_size_t arithmetic. *)
Definition bin_size (b : bininput) : Z := u64 (len (b_input b) * 8 - b_remain b).

Definition index_exn : exn := EWisard "Index out of range!".

(** get(index) / operator[], bininput.cc:22-33. [section] is an int (line 30), so for
    index/8 >= 2^31 it is negative and the access undefined; reading the byte at
    position input.size() of the const string gives 0. *)
Definition bin_get (b : bininput) (index : Z) : res Z :=
  if bin_size b <=? index then Throw index_exn
  else
    let section := s32 (index / 8) in
    let sectionIndex := 7 - index mod 8 in
    let* c := (if section =? len (b_input b) then Ok "000"%char
               else vget (b_input b) section) in
    Ok (Z.land (Z.shiftr (schar c) sectionIndex) 1).

(** set(index,value), bininput.cc:35-42. [section] is an index_size_t here (line 39).
    The int result is truncated to char; [value] is not masked, as in the source. *)
Definition bin_set (b : bininput) (index value : Z) : eff bininput unit :=
  if bin_size b <=? index then (Throw index_exn, b)
  else
    let section := index / 8 in
    let sectionIndex := 7 - index mod 8 in
    match vget (b_input b) section with
    | Ok c =>
        let z := Z.lor (Z.land (schar c) (Z.lnot (Z.shiftl 1 sectionIndex)))
                       (Z.shiftl value sectionIndex) in
        (Ok tt, BinInput (b_remain b) (<[Z.to_nat section := to_char z]> (b_input b)))
    | _ => (UB UBIndex, b)
    end.

(** BinInput(const std::vector<short>&), bininput.cc:8-13: set(i,input[i]) in order. *)
Fixpoint bin_fill (l : list Z) (i : Z) (b : bininput) : eff bininput unit :=
  match l with
  | [] => (Ok tt, b)
  | v :: l' => ebind (bin_set b i v) (fun _ b' => bin_fill l' (i + 1) b')
  end.
Definition bin_of_list (l : list Z) : res bininput :=
  match bin_fill l 0 (bin_of_size (len l)) with
  | (Ok _, b) => Ok b
  | (Throw e, _) => Throw e
  | (UB u, _) => UB u
  | (Hang, _) => Hang
  end.

(** data(), bininput.cc:48-51: base64 of the byte [remain] followed by the bytes. *)
Definition bin_data (b : bininput) : str := encode (to_char (b_remain b) :: b_input b).

(** BinInput(const std::string&), bininput.cc:15-20. convertToValue<char> of an empty
    substring reads the terminating '\0'; the second substr throws in that case. *)
Definition bin_of_data (data : str) : res bininput :=
  let* decoded := decode data in
  let* hd := substr decoded 0 1 in
  let remain := schar (nth 0 hd "000"%char) in
  let* input := substr decoded 1 (len decoded - 1) in
  Ok (BinInput remain input).

(** ** Images: the operations the template code uses on T = std::vector<int> / BinInput. *)
Record image := Image { im_size : Z; im_get : Z -> res Z }.

(** T = std::vector<int>: image[a] with an int index converted to size_t; a negative
    or too large index is undefined. *)
Definition vec_image (l : list Z) : image := Image (len l) (vget l).

(** T = BinInput: operator[](index_size_t) checks the range (bininput.cc:22-24). *)
Definition bin_image (b : bininput) : image := Image (bin_size b) (fun a => bin_get b (u64 a)).
