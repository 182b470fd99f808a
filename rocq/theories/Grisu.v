(** Model of the digit generation of nlohmann::json 3.1.2 (Grisu2), src/libs/json.hpp:7162-8038. The asserts in that code
    are taken as absent. *)
From Verif Require Import Prelude Bytes.
Local Open Scope Z_scope.

(** diyfp, json.hpp:7175-7183: f * 2^e with a 64 bit f. *)
Record diyfp := Diyfp { df : Z; de : Z }.
Definition lo32 (x : Z) : Z := Z.land x 4294967295.
Definition hi32 (x : Z) : Z := Z.shiftr x 32.
(** diyfp::mul, json.hpp:7201-7260: the upper 64 bits of the product, rounded. *)
Definition diyfp_mul (x y : diyfp) : diyfp :=
  let u_lo := lo32 (df x) in let u_hi := hi32 (df x) in
  let v_lo := lo32 (df y) in let v_hi := hi32 (df y) in
  let p0 := u64 (u_lo * v_lo) in let p1 := u64 (u_lo * v_hi) in
  let p2 := u64 (u_hi * v_lo) in let p3 := u64 (u_hi * v_hi) in
  let Q := u64 (u64 (hi32 p0 + lo32 p1) + lo32 p2) in
  let Q := u64 (Q + Z.shiftl 1 31) in
  Diyfp (u64 (u64 (u64 (p3 + hi32 p2) + hi32 p1) + hi32 Q)) (de x + de y + 64).
(** diyfp::normalize, json.hpp:7266-7277. 64 rounds suffice unless f = 0 (then the C++ loop has no end). *)
Fixpoint normalize_loop (fuel : nat) (f e : Z) : res diyfp :=
  if Z.shiftr f 63 =? 0
  then match fuel with O => Hang | S fuel => normalize_loop fuel (u64 (Z.shiftl f 1)) (e - 1) end
  else Ok (Diyfp f e).
Definition diyfp_normalize (x : diyfp) : res diyfp := normalize_loop 64 (df x) (de x).
(** diyfp::normalize_to, json.hpp:7283-7291 (a negative shift is undefined). *)
Definition diyfp_normalize_to (x : diyfp) (target : Z) : res diyfp :=
  let delta := de x - target in
  if (0 <=? delta) && (delta <? 64) then Ok (Diyfp (u64 (Z.shiftl (df x) delta)) target) else UB UBShift.

(** compute_boundaries, json.hpp:7308-7373, for the double m * 2^e with the canonical m and e (m < 2^53, and
    m >= 2^52 unless e = -1074): then v.f = m and v.e = e; F = 0 and E > 1 mean m = 2^52 and e > -1074. *)
Definition compute_boundaries (m e : Z) : res (diyfp * diyfp * diyfp) :=
  let lower_boundary_is_closer := (m =? 2 ^ 52) && (-1074 <? e) in
  let m_plus := Diyfp (u64 (2 * m + 1)) (e - 1) in
  let m_minus := if lower_boundary_is_closer then Diyfp (u64 (4 * m - 1)) (e - 2) else Diyfp (u64 (2 * m - 1)) (e - 1) in
  let* w_plus := diyfp_normalize m_plus in
  let* w_minus := diyfp_normalize_to m_minus (de w_plus) in
  let* v := diyfp_normalize (Diyfp m e) in
  Ok (v, w_minus, w_plus).

(** kCachedPowers, json.hpp:7503-7584: (f, e, k) with f * 2^e close to 10^k. *)
Definition cached_powers : list (Z * Z * Z) :=
  [(0xAB70FE17C79AC6CA, -1060, -300); (0xFF77B1FCBEBCDC4F, -1034, -292); (0xBE5691EF416BD60C, -1007, -284);
   (0x8DD01FAD907FFC3C, -980, -276); (0xD3515C2831559A83, -954, -268); (0x9D71AC8FADA6C9B5, -927, -260);
   (0xEA9C227723EE8BCB, -901, -252); (0xAECC49914078536D, -874, -244); (0x823C12795DB6CE57, -847, -236);
   (0xC21094364DFB5637, -821, -228); (0x9096EA6F3848984F, -794, -220); (0xD77485CB25823AC7, -768, -212);
   (0xA086CFCD97BF97F4, -741, -204); (0xEF340A98172AACE5, -715, -196); (0xB23867FB2A35B28E, -688, -188);
   (0x84C8D4DFD2C63F3B, -661, -180); (0xC5DD44271AD3CDBA, -635, -172); (0x936B9FCEBB25C996, -608, -164);
   (0xDBAC6C247D62A584, -582, -156); (0xA3AB66580D5FDAF6, -555, -148); (0xF3E2F893DEC3F126, -529, -140);
   (0xB5B5ADA8AAFF80B8, -502, -132); (0x87625F056C7C4A8B, -475, -124); (0xC9BCFF6034C13053, -449, -116);
   (0x964E858C91BA2655, -422, -108); (0xDFF9772470297EBD, -396, -100); (0xA6DFBD9FB8E5B88F, -369, -92);
   (0xF8A95FCF88747D94, -343, -84); (0xB94470938FA89BCF, -316, -76); (0x8A08F0F8BF0F156B, -289, -68);
   (0xCDB02555653131B6, -263, -60); (0x993FE2C6D07B7FAC, -236, -52); (0xE45C10C42A2B3B06, -210, -44);
   (0xAA242499697392D3, -183, -36); (0xFD87B5F28300CA0E, -157, -28); (0xBCE5086492111AEB, -130, -20);
   (0x8CBCCC096F5088CC, -103, -12); (0xD1B71758E219652C, -77, -4); (0x9C40000000000000, -50, 4);
   (0xE8D4A51000000000, -24, 12); (0xAD78EBC5AC620000, 3, 20); (0x813F3978F8940984, 30, 28);
   (0xC097CE7BC90715B3, 56, 36); (0x8F7E32CE7BEA5C70, 83, 44); (0xD5D238A4ABE98068, 109, 52);
   (0x9F4F2726179A2245, 136, 60); (0xED63A231D4C4FB27, 162, 68); (0xB0DE65388CC8ADA8, 189, 76);
   (0x83C7088E1AAB65DB, 216, 84); (0xC45D1DF942711D9A, 242, 92); (0x924D692CA61BE758, 269, 100);
   (0xDA01EE641A708DEA, 295, 108); (0xA26DA3999AEF774A, 322, 116); (0xF209787BB47D6B85, 348, 124);
   (0xB454E4A179DD1877, 375, 132); (0x865B86925B9BC5C2, 402, 140); (0xC83553C5C8965D3D, 428, 148);
   (0x952AB45CFA97A0B3, 455, 156); (0xDE469FBD99A05FE3, 481, 164); (0xA59BC234DB398C25, 508, 172);
   (0xF6C69A72A3989F5C, 534, 180); (0xB7DCBF5354E9BECE, 561, 188); (0x88FCF317F22241E2, 588, 196);
   (0xCC20CE9BD35C78A5, 614, 204); (0x98165AF37B2153DF, 641, 212); (0xE2A0B5DC971F303A, 667, 220);
   (0xA8D9D1535CE3B396, 694, 228); (0xFB9B7CD9A4A7443C, 720, 236); (0xBB764C4CA7A44410, 747, 244);
   (0x8BAB8EEFB6409C1A, 774, 252); (0xD01FEF10A657842C, 800, 260); (0x9B10A4E5E9913129, 827, 268);
   (0xE7109BFBA19C0C9D, 853, 276); (0xAC2820D9623BF429, 880, 284); (0x80444B5E7AA7CF85, 907, 292);
   (0xBF21E44003ACDD2D, 933, 300); (0x8E679C2F5E44FF8F, 960, 308); (0xD433179D9C8CB841, 986, 316);
   (0x9E19DB92B4E31BA9, 1013, 324)].
(** get_cached_power_for_binary_exponent, json.hpp:7447-7605; / rounds toward zero. *)
Definition cached_power (e : Z) : res (Z * Z * Z) :=
  let f := -60 - e - 1 in
  let k := Z.quot (f * 78913) (Z.shiftl 1 18) + (if 0 <? f then 1 else 0) in
  let index := Z.quot (300 + k + 7) 8 in
  vget cached_powers index.

(** find_largest_pow10, json.hpp:7611-7665: (pow10, k). *)
Definition find_largest_pow10 (n : Z) : Z * Z :=
  if 1000000000 <=? n then (1000000000, 10)
  else if 100000000 <=? n then (100000000, 9)
  else if 10000000 <=? n then (10000000, 8)
  else if 1000000 <=? n then (1000000, 7)
  else if 100000 <=? n then (100000, 6)
  else if 10000 <=? n then (10000, 5)
  else if 1000 <=? n then (1000, 4)
  else if 100 <=? n then (100, 3)
  else if 10 <=? n then (10, 2)
  else (1, 1).

(** grisu2_round, json.hpp:7667-7702, on the last digit [d] of the buffer. *)
Fixpoint grisu2_round (fuel : nat) (d dist delta rest ten_k : Z) : res Z :=
  if (rest <? dist) && (ten_k <=? u64 (delta - rest)) &&
     ((u64 (rest + ten_k) <? dist) || (u64 (u64 (rest + ten_k) - dist) <? u64 (dist - rest)))
  then match fuel with O => Hang | S fuel => grisu2_round fuel (d - 1) dist delta (u64 (rest + ten_k)) ten_k end
  else Ok d.

(** The first loop of grisu2_digit_gen, json.hpp:7772-7830; [inl]: it returned, [inr]: it ended with n = 0. The digits
    are those appended. [s] is -one.e. *)
Fixpoint integral_loop (n : nat) (s p1 p2 pow10 dist delta exponent : Z) (buffer : list Z) : res (list Z * Z + list Z) :=
  match n with
  | O => Ok (inr buffer)
  | S n =>
      let d := p1 / pow10 in
      let r := p1 mod pow10 in
      let rest := u64 (Z.shiftl r s + p2) in
      if rest <=? delta then
        let ten_n := u64 (Z.shiftl pow10 s) in
        let* d := grisu2_round 16 d dist delta rest ten_n in
        Ok (inl (buffer ++ [d], exponent + Z.of_nat n))
      else integral_loop n s r p2 (pow10 / 10) dist delta exponent (buffer ++ [d])
  end.
(** The second loop, json.hpp:7874-7926, and what follows it. *)
Fixpoint fraction_loop (fuel : nat) (s p2 dist delta exponent m : Z) (buffer : list Z) : res (list Z * Z) :=
  match fuel with
  | O => Hang
  | S fuel =>
      let p2 := u64 (p2 * 10) in
      let d := Z.shiftr p2 s in
      let r := Z.land p2 (u64 (Z.shiftl 1 s - 1)) in
      let m := m + 1 in
      let delta := u64 (delta * 10) in
      let dist := u64 (dist * 10) in
      if r <=? delta then
        let* d := grisu2_round 16 d dist delta r (u64 (Z.shiftl 1 s)) in
        Ok (buffer ++ [d], exponent - m)
      else fraction_loop fuel s r dist delta exponent m (buffer ++ [d])
  end.
(** grisu2_digit_gen, json.hpp:7708-7941. *)
Definition grisu2_digit_gen (exponent : Z) (M_minus w M_plus : diyfp) : res (list Z * Z) :=
  let delta := u64 (df M_plus - df M_minus) in
  let dist := u64 (df M_plus - df w) in
  let s := - de M_plus in
  let* _ := (if (0 <=? s) && (s <? 64) then Ok tt else UB UBShift) in
  let p1 := u32 (Z.shiftr (df M_plus) s) in
  let p2 := Z.land (df M_plus) (u64 (Z.shiftl 1 s - 1)) in
  let '(pow10, k) := find_largest_pow10 p1 in
  let* r := integral_loop (Z.to_nat k) s p1 p2 pow10 dist delta exponent [] in
  match r with
  | inl out => Ok out
  | inr buffer => fraction_loop 20 s p2 dist delta exponent 0 buffer
  end.
(** grisu2, json.hpp:7948-7999 and 8007-8038: digits and decimal exponent of the double m * 2^e. *)
Definition grisu2 (m e : Z) : res (list Z * Z) :=
  let* (vm, m_plus) := compute_boundaries m e in
  let '(v, m_minus) := vm in
  let* (ck, k) := cached_power (de m_plus) in
  let c := Diyfp (fst ck) (snd ck) in
  let w := diyfp_mul v c in
  let w_minus := diyfp_mul m_minus c in
  let w_plus := diyfp_mul m_plus c in
  grisu2_digit_gen (- k) (Diyfp (u64 (df w_minus + 1)) (de w_minus)) w (Diyfp (u64 (df w_plus - 1)) (de w_plus)).
