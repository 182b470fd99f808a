(** Model of class KernelCanvas, src/binarization/kernelcanvas.cc, and of its Python
    constructor, src/wrappers/kernelcanvaswrapper.cc. *)
From Coq Require Import SpecFloat.
From Verif Require Import Prelude Float32.

(** C [double] arithmetic: IEEE-754 binary64, round to nearest even. *)
Definition f64_add : f64 -> f64 -> f64 := SFadd 53 1024.
Definition f64_sub : f64 -> f64 -> f64 := SFsub 53 1024.
Definition f64_mul : f64 -> f64 -> f64 := SFmul 53 1024.
Definition f64_div : f64 -> f64 -> f64 := SFdiv 53 1024.
Definition f64_sqrt : f64 -> f64 := SFsqrt 53 1024.
Definition f64_ltb : f64 -> f64 -> bool := SFltb.
Definition f64_of_Z (z : Z) : f64 := binary_normalize 53 1024 z 0 false.
Definition f64_zero : f64 := f64_of_Z 0.

(** randdouble(min,max), src/common/utils.cc:7-9, given the value [r] of std::rand();
    RAND_MAX is glibc's 2147483647. *)
Definition randdouble (lo hi : f64) (r : Z) : f64 :=
  f64_add (f64_mul (f64_div (f64_of_Z r) (f64_of_Z 2147483647)) (f64_sub hi lo)) lo.

(** round(x) of <cmath> on a float, half away from zero; [None] for inf / NaN. *)
Definition f32_round (f : f32) : option Z :=
  match f with
  | S754_zero _ => Some 0
  | S754_infinity _ | S754_nan => None
  | S754_finite s m e =>
      let v := if 0 <=? e then Z.pos m * 2 ^ e else (Z.pos m + 2 ^ (- e - 1)) / 2 ^ (- e) in
      Some (if s then - v else v)
  end.

(** Members, kernelcanvas.cc:48-53. *)
Record kcanvas := KCanvas {
  kc_bitsByKernel : Z; kc_dim : Z; kc_useDirection : bool;
  kc_nact : Z; kc_amplifyDim : Z; kc_kernels : list (list f64) }.

(** checkInputs, kernelcanvas.cc:199-208. *)
Definition kc_checkInputs (n dim bits : Z) (deg : f32) : res unit :=
  if n <? 1 then Throw (EWisard "Error: the number of kernels can not be lesser than 1!")
  else if dim <? 1 then Throw (EWisard "Error: the dimension can not be lesser than 1!")
  else if bits <? 1 then Throw (EWisard "Error: the number of bits by kernel can not be lesser than 1!")
  else if f32_ltb f32_one deg || f32_ltb deg f32_zero
       then Throw (EWisard "Error: the activation degree must be between 0 and 1!")
  else Ok tt.

(** The cast (int) of a rounded float: undefined when the value does not fit. *)
Definition int_of_rounded (z : option Z) : res Z :=
  match z with Some z => if in_int z then Ok z else UB UBCast | None => UB UBCast end.

(** setupKernelCanvas, kernelcanvas.cc:57-76; [draw i d] is the value of std::rand() used for
    coordinate d of kernel i (arbitrary: the seed is the time). [member_dim] is the member dim when the
    function is entered, [None] if no constructor initialised it. *)
Definition kc_setup (member_dim : option Z) (n bits : Z) (useDirection : bool) (deg : f32) (draw : Z -> Z -> Z) : res kcanvas :=
  let* dim := match member_dim with Some dim => Ok dim | None => UB UBUninit end in
  let* _ := kc_checkInputs n dim bits deg in
  let* nact := int_of_rounded (f32_round (f32_mul deg (f32_of_Z n))) in
  let* (amplifyDim, currentDim) :=
    (if useDirection then
       let* t := int_of (2 * (dim - 1)) in
       let* a := int_of (dim + t) in
       let* c := int_of (a * 3) in Ok (a, c)
     else Ok (0, dim)) in
  Ok (KCanvas bits dim useDirection nact amplifyDim
        ((fun i => (fun d => randdouble (f64_of_Z (-1)) (f64_of_Z 1) (draw i d)) <$> seqZ 0 currentDim) <$> seqZ 0 n)).

(** Keyword arguments of both constructors; absent ones take the defaults 3, 0.07f, false
    (kernelcanvas.cc:7-14, kernelcanvaswrapper.cc:6-8). *)
Record kc_options := KcOptions { ko_bitsByKernel : option Z; ko_activationDegree : option f32; ko_useDirection : option bool }.
(** 0.07 rounded to float: 9395241 * 2^-27. *)
Definition deg_default : f32 := S754_finite false 9395241 (-27).

(** Python constructor, kernelcanvaswrapper.cc:4-24 (through the protected constructor,
    kernelcanvas.cc:55, which stores dim). *)
Definition kc_new_py (dim n : Z) (o : kc_options) (draw : Z -> Z -> Z) : res kcanvas :=
  kc_setup (Some dim) n (default 3 (ko_bitsByKernel o)) (default false (ko_useDirection o)) (default deg_default (ko_activationDegree o)) draw.

(** C++ constructors, kernelcanvas.cc:4-17: the parameter dim is never stored, so
    setupKernelCanvas finds the member uninitialised. Reading the options from the JSON object
    (lines 7-14) is not modelled; they are given as an argument. *)
Definition kc_new_cpp (dim n : Z) (o : kc_options) (draw : Z -> Z -> Z) : res kcanvas :=
  kc_setup None n (default 3 (ko_bitsByKernel o)) (default false (ko_useDirection o)) (default deg_default (ko_activationDegree o)) draw.

(** One loop [for j<dim: out[j] = f(out[j], row[j])], each index read in range or undefined. *)
Definition kc_over (dim : Z) (row : list f64) (f : Z -> f64 -> f64 -> res f64) (acc : list f64) : res (list f64) :=
  rmapM (fun j => let* a := vget acc j in let* x := vget row j in f j a x) (seqZ 0 dim).
(** The loop over the sequence. *)
Fixpoint kc_fold (dim : Z) (f : Z -> f64 -> f64 -> res f64) (acc : list f64) (seq : list (list f64)) : res (list f64) :=
  match seq with
  | [] => Ok acc
  | row :: seq' => let* acc := kc_over dim row f acc in kc_fold dim f acc seq'
  end.
(** multDimMean, kernelcanvas.cc:78-88. *)
Definition kc_mean (dim : Z) (seq : list (list f64)) : res (list f64) :=
  let* sums := kc_fold dim (fun _ a x => Ok (f64_add a x)) (repeat f64_zero (Z.to_nat dim)) seq in
  Ok ((fun a => f64_div a (f64_of_Z (len seq))) <$> sums).
(** multDimStd, kernelcanvas.cc:90-101. *)
Definition kc_std (dim : Z) (means : list f64) (seq : list (list f64)) : res (list f64) :=
  let* sums := kc_fold dim (fun j a x => let* m := vget means j in
                                         let diff := f64_sub m x in Ok (f64_add a (f64_mul diff diff)))
                 (repeat f64_zero (Z.to_nat dim)) seq in
  Ok ((fun a => f64_sqrt (f64_div a (f64_of_Z (len seq)))) <$> sums).

(** Assignment v[i] = x. *)
Definition vput {A} (l : list A) (i : Z) (x : A) : res (list A) :=
  if (0 <=? i) && (i <? len l) then Ok (<[Z.to_nat i := x]> l) else UB UBIndex.

(** switchIndexes, kernelcanvas.cc:107-113 (returned value and updated vector): ix[1] is
    overwritten before it is copied. *)
Definition switchIndexes (ix : list Z) : res (Z * list Z) :=
  let* temp := vget ix 2 in
  let* i0 := vget ix 0 in
  let* ix := vput ix 1 i0 in
  let* i1 := vget ix 1 in
  let* ix := vput ix 2 i1 in
  let* ix := vput ix 0 temp in
  Ok (temp, ix).

Section tanh.
(** std::tanh of libm: any function. *)
Context (tanh : f64 -> f64).

(** tanh((means[j] - sequenceData[..][j])/stds[j]), kernelcanvas.cc:159,163,169,171,195. *)
Definition kc_norm (means stds row : list f64) (j : Z) : res f64 :=
  let* m := vget means j in let* x := vget row j in let* s := vget stds j in
  Ok (tanh (f64_div (f64_sub m x) s)).

(** The loop over j of direction mode, kernelcanvas.cc:165-186, from the values of point,
    aback, afront and ipp; [row'] is sequenceData[index+1] if it exists. Returns point and ipp. *)
Fixpoint kc_direction (js : list Z) (dim amp : Z) (means stds row : list f64) (row' : option (list f64))
    (indexes : list Z) (point : list f64) (aback afront : f64) (ipp : Z) : res (list f64 * Z) :=
  match js with
  | [] => Ok (point, ipp)
  | j :: js' =>
      let ip := ipp + 1 in
      let* ipp2 := int_of (ipp * 2) in
      let* sinix := int_of (ipp2 + dim) in
      let* t := kc_norm means stds row j in
      let* point := vput point ip t in
      let* (point, afront) :=
        match row' with
        | Some next =>
            let* afront := kc_norm means stds next j in
            let* p0 := vget point ipp in
            let* p1 := vget point ip in
            let dx := f64_sub aback p0 in
            let dy := f64_sub afront p1 in
            let hypotenuse := f64_sqrt (f64_add (f64_mul dy dy) (f64_mul dx dx)) in
            let* point := vput point sinix (f64_div dx hypotenuse) in
            let* point := vput point (sinix + 1) (f64_div dy hypotenuse) in
            Ok (point, afront)
        | None =>
            let* i1 := vget indexes 1 in
            let* b := int_of (i1 * amp) in
            let* b := int_of (b * 2) in
            let* b := int_of (b + dim) in
            let* sinixA := int_of (b + j - 1) in
            let* v := vget point sinixA in
            let* point := vput point sinix v in
            let* v := vget point (sinixA + 1) in
            let* point := vput point (sinix + 1) v in
            Ok (point, afront)
        end in
      kc_direction js' dim amp means stds row row' indexes point afront afront ip
  end.
(** The copying loop, kernelcanvas.cc:187-192 ("first" is passed by value and never cleared:
    it is true on every call). *)
Fixpoint kc_copy (js : list Z) (amp ipp i1 i2 : Z) (point : list f64) : res (list f64) :=
  match js with
  | [] => Ok point
  | j :: js' =>
      let* v := vget point (ipp + j) in
      let* point := vput point (i1 * amp + j) v in
      let* v := vget point (ipp + j) in
      let* point := vput point (i2 * amp + j) v in
      kc_copy js' amp ipp i1 i2 point
  end.

(** calculatePoint, kernelcanvas.cc:149-198: new point and indexes. *)
Definition kc_point (kc : kcanvas) (point : list f64) (row : list f64) (row' : option (list f64))
    (means stds : list f64) (indexes : list Z) : res (list f64 * list Z) :=
  let dim := kc_dim kc in let amp := kc_amplifyDim kc in
  if kc_useDirection kc then
    let* (ix, indexes) := switchIndexes indexes in
    let ipp := ix * amp in
    let* t := kc_norm means stds row 0 in
    let* point := vput point ipp t in
    let* aback := match row' with Some next => kc_norm means stds next 0 | None => Ok f64_zero end in
    let* (point, ipp) := kc_direction (seqZ 1 (dim - 1)) dim amp means stds row row' indexes point aback f64_zero ipp in
    let* i1 := vget indexes 1 in
    let* i2 := vget indexes 2 in
    let* point := kc_copy (seqZ 0 amp) amp ipp i1 i2 point in
    Ok (point, indexes)
  else
    let* p := kc_over dim row (fun j _ _ => kc_norm means stds row j) point in Ok (p, indexes).
End tanh.

(** calculateDistances for one kernel, kernelcanvas.cc:121-137. *)
Fixpoint kc_dist_dir (js : list Z) (amp : Z) (point kernel : list f64) (indexes : list Z) (pi : Z) (distance : f64) : res f64 :=
  match js with
  | [] => Ok distance
  | j :: js' =>
      let* b := vget indexes pi in
      let* x := vget point (b * amp + Z.rem j amp) in
      let* k := vget kernel j in
      let diff := f64_sub x k in
      kc_dist_dir js' amp point kernel indexes (if j =? amp - 1 then pi + 1 else pi) (f64_add distance (f64_mul diff diff))
  end.
Fixpoint kc_dist_plain (js : list Z) (point kernel : list f64) (distance : f64) : res f64 :=
  match js with
  | [] => Ok distance
  | j :: js' =>
      let* x := vget point j in
      let* k := vget kernel j in
      let diff := f64_sub x k in
      kc_dist_plain js' point kernel (f64_add distance (f64_mul diff diff))
  end.
Definition kc_distance (kc : kcanvas) (point : list f64) (indexes : list Z) (kernel : list f64) : res f64 :=
  let* d := (if kc_useDirection kc
             then kc_dist_dir (seqZ 0 (kc_amplifyDim kc * 3)) (kc_amplifyDim kc) point kernel indexes 0 f64_zero
             else kc_dist_plain (seqZ 0 (kc_dim kc)) point kernel f64_zero) in
  Ok (f64_sqrt d).
(** calculateDistances, kernelcanvas.cc:115-140: pairs (kernel, distance). The kernel number is
    stored as a double and cast back to int (line 145); it is below 2^31, hence exact, and kept
    as an integer here. *)
Definition kc_distances (kc : kcanvas) (point : list f64) (indexes : list Z) : res (list (Z * f64)) :=
  let* ds := rmapM (kc_distance kc point indexes) (kc_kernels kc) in
  Ok (zip (seqZ 0 (len (kc_kernels kc))) ds).

(** compareDistances, kernelcanvas.cc:103-105. *)
Definition kc_less (a b : Z * f64) : bool := f64_ltb a.2 b.2.
(** std::sort has undefined behaviour unless the comparison is a strict weak order on the elements. *)
Definition strict_weak {A} (less : A -> A -> bool) (l : list A) : bool :=
  forallb (fun a => negb (less a a)) l &&
  forallb (fun a => forallb (fun b => forallb (fun c =>
     implb (less a b && less b c) (less a c) &&
     implb (negb (less a b) && negb (less b a) && negb (less b c) && negb (less c b)) (negb (less a c) && negb (less c a))) l) l) l.

Section sort.
(** The order in which std::sort leaves equivalent elements is unspecified: [srt] is any function. *)
Context (srt : list (Z * f64) -> list (Z * f64)).
Definition kc_sort (l : list (Z * f64)) : res (list (Z * f64)) :=
  if strict_weak kc_less l then Ok (srt l) else UB UBCompare.

(** The loop over k, kernelcanvas.cc:147. *)
Fixpoint kc_fill (ks : list Z) (base : Z) (output : list Z) : res (list Z) :=
  match ks with
  | [] => Ok output
  | k :: ks' => let* i := int_of (base + k) in let* output := vput output i 1 in kc_fill ks' base output
  end.
(** The loop over i, kernelcanvas.cc:144-148. *)
Fixpoint kc_activate (is_ : list Z) (bits : Z) (distances : list (Z * f64)) (output : list Z) : res (list Z) :=
  match is_ with
  | [] => Ok output
  | i :: is' =>
      let* d := vget distances i in
      let* base := int_of (d.1 * bits) in
      let* v := vget output base in
      let* output := (if v =? 1 then Ok output else kc_fill (seqZ 0 bits) base output) in
      kc_activate is' bits distances output
  end.

(** The loop of transform, kernelcanvas.cc:33-38; checkDimension is lines 210-213. *)
Fixpoint kc_loop (tanh : f64 -> f64) (kc : kcanvas) (means stds : list f64) (seq : list (list f64))
    (point : list f64) (indexes : list Z) (output : list Z) : res (list Z) :=
  match seq with
  | [] => Ok output
  | row :: seq' =>
      if negb (len row =? kc_dim kc)
      then Throw (EWisard "Error: the dimension of input data is defferent of kernel's dimension!")
      else
        let* (point, indexes) := kc_point tanh kc point row (head seq') means stds indexes in
        let* distances := kc_distances kc point indexes in
        let* sorted := kc_sort distances in
        let* output := kc_activate (seqZ 0 (kc_nact kc)) (kc_bitsByKernel kc) sorted output in
        kc_loop tanh kc means stds seq' point indexes output
  end.
(** transform, kernelcanvas.cc:19-41 (sequences of less than 2^31 rows: the row number is an int). *)
Definition kc_transform (tanh : f64 -> f64) (kc : kcanvas) (seq : list (list f64)) : res (list Z) :=
  let* means := kc_mean (kc_dim kc) seq in
  let* stds := kc_std (kc_dim kc) means seq in
  let output := repeat 0 (Z.to_nat (len (kc_kernels kc) * kc_bitsByKernel kc)) in
  let* k0 := vget (kc_kernels kc) 0 in
  let point := repeat f64_zero (length k0) in
  kc_loop tanh kc means stds seq point [2; 1; 0] output.
End sort.
