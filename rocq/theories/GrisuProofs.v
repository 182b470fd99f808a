(** Grisu2 ends with at most 17 digits whose value lies strictly between the midpoints to the neighbouring doubles. *)
From Coq Require Import QArith Qcanon Qpower.
From Verif Require Import Prelude Bytes Grisu GrisuSpec.
Local Open Scope Z_scope.

Lemma u64_small z : 0 <= z < 2 ^ 64 -> u64 z = z.
Proof. intros H. unfold u64. apply Z.mod_small. unfold W64. lia. Qed.
Lemma lo32_mod x : lo32 x = x mod 2 ^ 32.
Proof. unfold lo32. change 4294967295 with (Z.ones 32). apply Z.land_ones. lia. Qed.
Lemma hi32_div x : hi32 x = x / 2 ^ 32.
Proof. unfold hi32. apply Z.shiftr_div_pow2. lia. Qed.
Lemma split32 x : 0 <= x < 2 ^ 64 -> x = hi32 x * 2 ^ 32 + lo32 x /\ 0 <= lo32 x < 2 ^ 32 /\ 0 <= hi32 x < 2 ^ 32.
Proof.
  intros H. rewrite lo32_mod, hi32_div. pose proof (Z.div_mod x (2 ^ 32) ltac:(lia)). pose proof (Z.mod_pos_bound x (2 ^ 32) ltac:(lia)).
  assert (0 <= x / 2 ^ 32) by (apply Z.div_pos; lia). assert (x / 2 ^ 32 < 2 ^ 32) by (apply Z.div_lt_upper_bound; lia). lia.
Qed.

(** ** The rounded product *)
Lemma mul_small a b : 0 <= a < 2 ^ 32 -> 0 <= b < 2 ^ 32 -> 0 <= a * b <= (2 ^ 32 - 1) * (2 ^ 32 - 1).
Proof. intros Ha Hb. split; [apply Z.mul_nonneg_nonneg; lia|]. apply Z.mul_le_mono_nonneg; lia. Qed.
Lemma diyfp_mul_spec x y : 0 <= df x < 2 ^ 64 -> 0 <= df y < 2 ^ 64 ->
  diyfp_mul x y = Diyfp ((df x * df y + 2 ^ 63) / 2 ^ 64) (de x + de y + 64).
Proof.
  intros Hx Hy. unfold diyfp_mul. cbv zeta.
  destruct (split32 _ Hx) as (Ex & Hul & Huh). destruct (split32 _ Hy) as (Ey & Hvl & Hvh).
  set (ul := lo32 (df x)) in *. set (uh := hi32 (df x)) in *. set (vl := lo32 (df y)) in *. set (vh := hi32 (df y)) in *.
  pose proof (mul_small _ _ Hul Hvl) as B0. pose proof (mul_small _ _ Hul Hvh) as B1.
  pose proof (mul_small _ _ Huh Hvl) as B2. pose proof (mul_small _ _ Huh Hvh) as B3.
  set (p0 := ul * vl) in *. set (p1 := ul * vh) in *. set (p2 := uh * vl) in *. set (p3 := uh * vh) in *.
  assert (Hprod : df x * df y = p0 + 2 ^ 32 * (p1 + p2) + 2 ^ 64 * p3).
  { rewrite Ex, Ey. unfold p0, p1, p2, p3. change (2 ^ 64) with (2 ^ 32 * 2 ^ 32). ring. }
  clearbody p0 p1 p2 p3. clear Hul Huh Hvl Hvh Ex Ey. clearbody ul uh vl vh.
  rewrite (u64_small p0), (u64_small p1), (u64_small p2), (u64_small p3) by lia.
  destruct (split32 p0 ltac:(lia)) as (E0 & H0l & H0h). destruct (split32 p1 ltac:(lia)) as (E1 & H1l & H1h).
  destruct (split32 p2 ltac:(lia)) as (E2 & H2l & H2h).
  set (a0 := lo32 p0) in *. set (b0 := hi32 p0) in *. set (a1 := lo32 p1) in *. set (b1 := hi32 p1) in *.
  set (a2 := lo32 p2) in *. set (b2 := hi32 p2) in *. clearbody a0 b0 a1 b1 a2 b2.
  change (Z.shiftl 1 31) with (2 ^ 31).
  rewrite (u64_small (b0 + a1)), (u64_small (b0 + a1 + a2)), (u64_small (b0 + a1 + a2 + 2 ^ 31)) by lia.
  rewrite hi32_div. set (Q := b0 + a1 + a2 + 2 ^ 31).
  assert (HQ : 0 <= Q < 2 ^ 34) by (unfold Q; lia).
  assert (0 <= Q / 2 ^ 32) by (apply Z.div_pos; lia).
  assert (HQ4 : Q / 2 ^ 32 < 4) by (apply Z.div_lt_upper_bound; lia).
  rewrite (u64_small (p3 + b2)), (u64_small (p3 + b2 + b1)), (u64_small (p3 + b2 + b1 + Q / 2 ^ 32)) by lia.
  f_equal. rewrite Hprod.
  replace (p0 + 2 ^ 32 * (p1 + p2) + 2 ^ 64 * p3 + 2 ^ 63) with (a0 + 2 ^ 32 * Q + (p3 + b2 + b1) * 2 ^ 64) by (unfold Q; rewrite E0, E1, E2; lia).
  rewrite Z.div_add by lia.
  assert (EQ : (a0 + 2 ^ 32 * Q) / 2 ^ 64 = Q / 2 ^ 32); [|rewrite EQ; lia].
  change (2 ^ 64) with (2 ^ 32 * 2 ^ 32). rewrite <- Z.div_div by lia.
  rewrite (Z.mul_comm (2 ^ 32) Q), Z.div_add, (Z.div_small a0) by lia. reflexivity.
Qed.

(** ** Normalisation *)
Lemma normalize_loop_spec fuel : forall f e, 0 < f < 2 ^ 64 -> 63 - Z.log2 f <= Z.of_nat fuel ->
  normalize_loop fuel f e = Ok (Diyfp (f * 2 ^ (63 - Z.log2 f)) (e - (63 - Z.log2 f))).
Proof.
  induction fuel as [|fuel IH]; intros f e Hf Hn; cbn [normalize_loop]; rewrite Z.shiftr_div_pow2 by lia.
  - assert (Z.log2 f < 64) by (apply Z.log2_lt_pow2; lia).
    assert (Z.log2 f = 63) by lia. destruct (Z.log2_spec f ltac:(lia)) as [G _]. rewrite H0 in G.
    rewrite (proj2 (Z.eqb_neq _ 0)). 2:{ intros E. apply Z.div_small_iff in E; lia. }
    rewrite H0. cbn. rewrite Z.mul_1_r, Z.sub_0_r. reflexivity.
  - destruct (Z.eqb_spec (f / 2 ^ 63) 0) as [E|E].
    + apply Z.div_small_iff in E; [|lia]. rewrite Z.shiftl_mul_pow2, (u64_small (f * 2 ^ 1)) by lia.
      assert (Hl : Z.log2 (f * 2 ^ 1) = Z.log2 f + 1) by (rewrite Z.log2_mul_pow2 by lia; lia).
      assert (Z.log2 f < 63) by (apply Z.log2_lt_pow2; lia).
      rewrite IH by (rewrite ?Hl; lia). rewrite Hl. f_equal. f_equal; [|lia].
      replace (63 - Z.log2 f) with (1 + (63 - (Z.log2 f + 1))) by lia. rewrite Z.pow_add_r by lia. ring.
    + assert (2 ^ 63 <= f). { apply Z.le_ngt. intros G. apply E. apply Z.div_small. lia. }
      assert (Z.log2 f = 63) as ->. { apply Z.log2_unique; lia. } cbn. rewrite Z.mul_1_r, Z.sub_0_r. reflexivity.
Qed.
Lemma normalize_spec x : 0 < df x < 2 ^ 64 ->
  diyfp_normalize x = Ok (Diyfp (df x * 2 ^ (63 - Z.log2 (df x))) (de x - (63 - Z.log2 (df x)))).
Proof. intros H. unfold diyfp_normalize. apply normalize_loop_spec; [exact H|]. pose proof (Z.log2_nonneg (df x)). lia. Qed.

Lemma boundaries_spec m e : is_double m e -> exists s, 10 <= s <= 62 /\ 2 ^ 63 <= (2 * m + 1) * 2 ^ s < 2 ^ 64 /\
  compute_boundaries m e = Ok (Diyfp (2 * m * 2 ^ s) (e - 1 - s),
    Diyfp (if closer m e then (4 * m - 1) * 2 ^ (s - 1) else (2 * m - 1) * 2 ^ s) (e - 1 - s),
    Diyfp ((2 * m + 1) * 2 ^ s) (e - 1 - s)).
Proof.
  intros (Hm & He & Hn). exists (63 - Z.log2 (2 * m + 1)).
  assert (Hl : Z.log2 (2 * m + 1) = Z.log2 m + 1).
  { replace (2 * m + 1) with (Z.succ (2 * m)) by lia. pose proof (Z.log2_succ_double m ltac:(lia)) as G. unfold Z.succ in *. rewrite G. reflexivity. }
  assert (Hl0 : 0 <= Z.log2 m) by apply Z.log2_nonneg. assert (Hl1 : Z.log2 m < 53) by (apply Z.log2_lt_pow2; lia).
  set (s := 63 - Z.log2 (2 * m + 1)). assert (Hs : 10 <= s <= 62) by (unfold s; lia). split; [exact Hs|].
  assert (Hb : 2 ^ 63 <= (2 * m + 1) * 2 ^ s < 2 ^ 64).
  { destruct (Z.log2_spec (2 * m + 1) ltac:(lia)) as [G1 G2]. assert (0 < 2 ^ s) by (apply Z.pow_pos_nonneg; lia).
    split.
    - replace 63 with (Z.log2 (2 * m + 1) + s) at 1 by (unfold s; lia). rewrite Z.pow_add_r by (unfold s in *; lia).
      apply Z.mul_le_mono_nonneg_r; lia.
    - replace 64 with (Z.succ (Z.log2 (2 * m + 1)) + s) by (unfold s; lia). rewrite Z.pow_add_r by (unfold s in *; lia).
      apply Z.mul_lt_mono_pos_r; lia. }
  split; [exact Hb|]. unfold compute_boundaries. cbv zeta. fold (closer m e).
  rewrite normalize_spec by (cbn [df]; rewrite u64_small by lia; lia). cbn [df de rbind]. rewrite (u64_small (2 * m + 1)) by lia. fold s.
  assert (Hps : 0 < 2 ^ s) by (apply Z.pow_pos_nonneg; lia).
  assert (Hmul2 : 2 ^ s = 2 * 2 ^ (s - 1)) by (rewrite <- Z.pow_succ_r by lia; f_equal; lia).
  assert (Hv : diyfp_normalize (Diyfp m e) = Ok (Diyfp (2 * m * 2 ^ s) (e - 1 - s))).
  { rewrite normalize_spec by (cbn [df]; lia). cbn [df de]. replace (63 - Z.log2 m) with (1 + s) by (unfold s; lia). rewrite Z.pow_add_r by lia.
    f_equal. f_equal; [ring|lia]. }
  unfold diyfp_normalize_to. cbv zeta. cbn [de].
  destruct (closer m e); cbn [df de].
  - replace (e - 2 - (e - 1 - s)) with (s - 1) by lia. rewrite (proj2 (Z.leb_le 0 (s - 1))), (proj2 (Z.ltb_lt (s - 1) 64)) by lia.
    cbn [andb rbind]. rewrite Hv. cbn [rbind]. rewrite (u64_small (4 * m - 1)) by lia. rewrite Z.shiftl_mul_pow2 by lia.
    rewrite (u64_small ((4 * m - 1) * 2 ^ (s - 1))) by nia. reflexivity.
  - replace (e - 1 - (e - 1 - s)) with s by lia. rewrite (proj2 (Z.leb_le 0 s)), (proj2 (Z.ltb_lt s 64)) by lia.
    cbn [andb rbind]. rewrite Hv. cbn [rbind]. rewrite (u64_small (2 * m - 1)) by lia. rewrite Z.shiftl_mul_pow2 by lia.
    rewrite (u64_small ((2 * m - 1) * 2 ^ s)) by nia. reflexivity.
Qed.

(** ** The table *)
(** f is within 1/2 of 10^k / 2^e; written with common positive factors. *)
Definition close_power (f e k : Z) : bool :=
  2 * Z.abs (f * 2 ^ (e + 1200) * 10 ^ 400 - 10 ^ (k + 400) * 2 ^ 1200) <=? 2 ^ (e + 1200) * 10 ^ 400.
Definition table_ok (E : Z) : bool :=
  match cached_power E with
  | Ok (f, e, k) => (-60 <=? e + E + 64) && (e + E + 64 <=? -32) && (2 ^ 63 <=? f) && (f <? 2 ^ 64) && (-300 <=? k) && (k <=? 324) &&
                    (-1100 <=? e) && (e <=? 1100)
  | _ => false
  end.
Lemma table_check : List.forallb table_ok (seqZ (-1137) 2098) = true.
Proof. vm_compute. reflexivity. Qed.
Lemma close_check : List.forallb (fun c => close_power c.1.1 c.1.2 c.2) cached_powers = true.
Proof. vm_compute. reflexivity. Qed.
Lemma cached_spec E : -1137 <= E <= 960 -> exists f e k, cached_power E = Ok (f, e, k) /\
  -60 <= e + E + 64 <= -32 /\ 2 ^ 63 <= f < 2 ^ 64 /\ -300 <= k <= 324 /\ -1100 <= e <= 1100 /\ close_power f e k = true.
Proof.
  intros HE. pose proof table_check as H. rewrite List.forallb_forall in H. specialize (H E).
  assert (HI : List.In E (seqZ (-1137) 2098)) by (apply elem_of_list_In, elem_of_seqZ; lia).
  specialize (H HI). unfold table_ok in H. destruct (cached_power E) as [[[f e] k]| | |] eqn:Ec; try discriminate.
  exists f, e, k. split; [reflexivity|].
  repeat (apply andb_prop in H as [H ?]). split; [lia|]. split; [lia|]. split; [lia|]. split; [lia|].
  unfold cached_power in Ec. pose proof close_check as G. rewrite List.forallb_forall in G. apply (G (f, e, k)).
  unfold vget in Ec. destruct (_ : bool) in Ec; [|discriminate].
  match type of Ec with match ?x with _ => _ end = _ => destruct x as [c|] eqn:El; [|discriminate] end.
  injection Ec as ->. apply elem_of_list_In. eapply elem_of_list_lookup_2. exact El.
Qed.

(** ** Digit generation *)
Lemma digits_snoc ds d : digits_of (ds ++ [d]) = digits_of ds * 10 + d.
Proof. unfold digits_of. rewrite fold_left_app. reflexivity. Qed.
Lemma good_snoc ds d : good_digits ds -> 0 <= d <= 9 -> (ds = [] -> d <> 0) -> good_digits (ds ++ [d]).
Proof.
  intros [H1 H2] Hd Hn. split; [apply Forall_app; split; [exact H1|constructor; [exact Hd|constructor]]|].
  destruct ds as [|d0 ds]; cbn in *; [intros [= E]; apply Hn; [reflexivity|exact E]|exact H2].
Qed.

Lemma round_spec dist delta ten : 0 < ten -> delta < 2 ^ 64 -> forall fuel d rest, 0 <= rest <= delta -> delta < d * ten + rest -> d <= Z.of_nat fuel ->
  exists i, 0 <= i < d /\ grisu2_round fuel d dist delta rest ten = Ok (d - i) /\ rest + i * ten <= delta.
Proof.
  intros Ht Hd. induction fuel as [|fuel IH]; intros d rest Hr Hlt Hf; [exfalso; nia|].
  assert (Hd0 : 0 < d) by nia. cbn [grisu2_round].
  destruct ((rest <? dist) && (ten <=? u64 (delta - rest)) && ((u64 (rest + ten) <? dist) || (u64 (u64 (rest + ten) - dist) <? u64 (dist - rest)))) eqn:E.
  - apply andb_prop in E as [E _]. apply andb_prop in E as [_ E]. apply Z.leb_le in E. rewrite u64_small in E by lia.
    rewrite (u64_small (rest + ten)) by lia.
    destruct (IH (d - 1) (rest + ten)) as (i & Hi & -> & Hle); [lia|lia|lia|].
    exists (i + 1). split; [lia|]. split; [f_equal; lia|lia].
  - exists 0. split; [lia|]. split; [f_equal; lia|lia].
Qed.

Section gen.
Context (s MP MM exponent : Z) (k : nat).
Context (Hs : 32 <= s <= 60) (HMM : 0 < MM) (HMP : MM <= MP < 2 ^ 64).
Context (Hk : (1 <= k)%nat) (Hlead : 10 ^ (Z.of_nat k - 1) * 2 ^ s <= MP) (Hwide : MP <= 10 ^ 16 * (MP - MM)).
Let one := 2 ^ s.
Let delta := MP - MM.

Definition generated (r : list Z * Z) : Prop := 1 <= len r.1 <= 17 /\ good_digits r.1 /\
  exists a b, 0 <= a <= 10 /\ 0 <= b <= 20 /\ r.2 = exponent + a - b /\
    MM * 10 ^ b <= digits_of r.1 * 10 ^ a * one <= MP * 10 ^ b.

Lemma one_bounds : 2 ^ 32 <= one <= 2 ^ 60.
Proof. unfold one. split; apply Z.pow_le_mono_r; lia. Qed.

Lemma integral_spec dist p2 : 0 <= p2 < one -> forall n p1 buffer, (n <= k)%nat -> (k <= 10)%nat -> len buffer = Z.of_nat k - Z.of_nat n ->
  good_digits buffer -> 0 <= p1 < 10 ^ Z.of_nat n -> (buffer = [] -> 10 ^ (Z.of_nat n - 1) <= p1) ->
  MP = (digits_of buffer * 10 ^ Z.of_nat n + p1) * one + p2 -> delta < p1 * one + p2 ->
  match integral_loop n s p1 p2 (10 ^ (Z.of_nat n - 1)) dist delta exponent buffer with
  | Ok (inl r) => generated r
  | Ok (inr b) => len b = Z.of_nat k /\ good_digits b /\ MP = digits_of b * one + p2 /\ delta < p2
  | _ => False
  end.
Proof.
  intros Hp2. pose proof one_bounds as Ho. induction n as [|n IH]; intros p1 buffer Hnk Hk10 Hlen Hgood Hp1 Hfirst HM Hgo.
  { cbn [integral_loop]. change (Z.of_nat 0) with 0 in *. rewrite Z.pow_0_r in *. assert (p1 = 0) as -> by lia.
    split; [lia|]. split; [exact Hgood|]. split; [lia|lia]. }
  cbn [integral_loop]. replace (Z.of_nat (Datatypes.S n) - 1) with (Z.of_nat n) in * by lia.
  set (t := 10 ^ Z.of_nat n) in *. assert (Ht : 0 < t) by (apply Z.pow_pos_nonneg; lia).
  assert (Ht10 : 10 ^ Z.of_nat (Datatypes.S n) = 10 * t) by (unfold t; rewrite Nat2Z.inj_succ, Z.pow_succ_r by lia; reflexivity).
  rewrite Ht10 in *.
  pose proof (Z.div_mod p1 t ltac:(lia)) as Hdm. pose proof (Z.mod_pos_bound p1 t Ht) as Hr.
  set (d := p1 / t) in *. set (r := p1 mod t) in *.
  assert (Hd : 0 <= d <= 9). { split; [apply Z.div_pos; lia|]. assert (d < 10); [|lia]. apply Z.div_lt_upper_bound; lia. }
  assert (Hd0 : buffer = [] -> d <> 0). { intros Hb E. specialize (Hfirst Hb). rewrite E in Hdm. lia. }
  rewrite !Z.shiftl_mul_pow2 by lia. fold one.
  assert (Hk17 : Z.of_nat k - Z.of_nat (Datatypes.S n) <= 16).
  { assert (Hlt : 10 ^ (Z.of_nat k - 1) < 10 ^ (16 + Z.of_nat (Datatypes.S n))).
    { rewrite Z.pow_add_r by lia. rewrite Ht10. fold one in Hlead.
      assert (delta < 10 * t * one). { assert ((p1 + 1) * one <= 10 * t * one) by (apply Z.mul_le_mono_nonneg_r; lia). lia. } apply (Z.mul_lt_mono_pos_r one); [lia|]. unfold delta in *. lia. }
    apply Z.pow_lt_mono_r_iff in Hlt; lia. }
  assert (Hb0 : 0 <= digits_of buffer).
  { clear -Hgood. unfold digits_of. destruct Hgood as [H _]. assert (G : forall a, 0 <= a -> 0 <= fold_left (fun a d => a * 10 + d) buffer a).
    { induction H as [|x l Hx H IH]; intros a Ha; cbn; [lia|]. apply IH. lia. } apply G. lia. }
  assert (HMP1 : p1 * one + p2 <= MP).
  { assert (0 <= digits_of buffer * (10 * t) * one) by (repeat apply Z.mul_nonneg_nonneg; lia). lia. }
  assert (Hrp : r * one <= p1 * one).
  { apply Z.mul_le_mono_nonneg_r; [lia|]. assert (0 <= t * d) by (apply Z.mul_nonneg_nonneg; lia). lia. }
  assert (Hrest : 0 <= r * one + p2 < 2 ^ 64).
  { assert (0 <= r * one) by (apply Z.mul_nonneg_nonneg; lia). lia. }
  rewrite (u64_small (r * one + p2)) by exact Hrest.
  destruct (Z.leb_spec (r * one + p2) delta) as [Hst|Hst].
  - assert (Hten : 0 < t * one < 2 ^ 64).
    { split; [apply Z.mul_pos_pos; lia|].
      destruct (decide (buffer = [])) as [Hb|Hb].
      { specialize (Hfirst Hb). assert (t * one <= p1 * one) by (apply Z.mul_le_mono_nonneg_r; lia). lia. }
      assert (1 <= digits_of buffer).
      2:{ assert (t * one <= digits_of buffer * (10 * t) * one). { apply Z.mul_le_mono_nonneg_r; [lia|]. assert (1 * (10 * t) <= digits_of buffer * (10 * t)) by (apply Z.mul_le_mono_nonneg_r; lia). lia. }
          assert (0 <= p1 * one) by (apply Z.mul_nonneg_nonneg; lia). lia. }
      clear -Hgood Hb. destruct buffer as [|x l]; [congruence|]. destruct Hgood as [H1 H2]. cbn in H2.
      pose proof (Forall_inv H1) as Hx. cbv beta in Hx. assert (1 <= x) by (destruct (decide (x = 0)) as [->|]; [congruence|lia]).
      unfold digits_of. cbn. assert (G : forall a, 1 <= a -> 1 <= fold_left (fun a d => a * 10 + d) l a); [|apply G; lia].
      apply Forall_inv_tail in H1. clear Hb. induction H1 as [|y l Hy H1 IH]; intros a Ha; cbn [fold_left]; [lia|]. apply IH. cbv beta in Hy. lia. }
    rewrite (u64_small (t * one)) by lia.
    destruct (round_spec dist delta (t * one) ltac:(lia) ltac:(unfold delta; lia) 16 d (r * one + p2) ltac:(lia)) as (i & Hi & -> & Hle);
      [replace (d * (t * one) + (r * one + p2)) with (p1 * one + p2) by (rewrite Hdm; ring); exact Hgo|lia|].
    cbn [rbind]. unfold generated. cbn [fst snd]. split; [unfold len in *; rewrite app_length; cbn [length]; lia|].
    split; [apply good_snoc; [exact Hgood|lia|lia]|]. exists (Z.of_nat n), 0. split; [lia|]. split; [lia|]. split; [lia|].
    rewrite digits_snoc, Z.pow_0_r, !Z.mul_1_r. fold t. unfold delta in Hle.
    assert (EM : MP = (digits_of buffer * 10 + (d - i)) * t * one + (r * one + p2 + i * (t * one))) by (rewrite HM, Hdm at 1; ring).
    assert (0 <= i * (t * one)) by (apply Z.mul_nonneg_nonneg; lia). lia.
  - destruct n as [|n'].
    + cbn [integral_loop]. assert (Et : t = 1) by reflexivity. assert (Er : r = 0) by lia. clearbody r d t.
      split; [unfold len in *; rewrite app_length; cbn [length]; lia|]. split; [apply good_snoc; auto|].
      rewrite digits_snoc. split; [rewrite HM, Hdm, Er, Et; ring|lia].
    + replace (t / 10) with (10 ^ (Z.of_nat (Datatypes.S n') - 1)).
      2:{ unfold t. rewrite Nat2Z.inj_succ, Z.pow_succ_r by lia. rewrite Z.mul_comm, Z.div_mul by lia. f_equal. lia. }
      apply IH.
      * lia.
      * exact Hk10.
      * unfold len in *. rewrite app_length. cbn [length]. lia.
      * apply good_snoc; auto.
      * exact Hr.
      * intros E. destruct buffer; discriminate E.
      * rewrite digits_snoc. fold t. rewrite HM, Hdm. ring.
      * exact Hst.
Qed.

Lemma fraction_spec : forall fuel m dist p2 buffer, 0 <= m -> len buffer = Z.of_nat k + m -> 18 <= Z.of_nat fuel + Z.of_nat k + m ->
  good_digits buffer -> buffer <> [] -> 0 <= p2 < one -> MP * 10 ^ m = digits_of buffer * one + p2 -> delta * 10 ^ m < p2 ->
  match fraction_loop fuel s p2 dist (delta * 10 ^ m) exponent m buffer with
  | Ok r => generated r
  | _ => False
  end.
Proof.
  pose proof one_bounds as Ho. assert (Hdel : 0 <= delta) by (unfold delta; lia).
  induction fuel as [|fuel IH]; intros m dist p2 buffer Hm Hlen Hf Hgood Hne Hp2 HM Hgo.
  all: assert (Ht : 0 < 10 ^ m) by (apply Z.pow_pos_nonneg; lia).
  all: assert (Hk17 : Z.of_nat k + m <= 16).
  1,3: assert (Hlt : 10 ^ (Z.of_nat k - 1 + m) < 10 ^ 16); [|apply Z.pow_lt_mono_r_iff in Hlt; lia].
  1,2: rewrite Z.pow_add_r by lia; fold one in Hlead; apply (Z.mul_lt_mono_pos_r one); [lia|];
    assert (G1 : 10 ^ (Z.of_nat k - 1) * one * 10 ^ m <= MP * 10 ^ m) by (apply Z.mul_le_mono_nonneg_r; lia);
    assert (G2 : MP * 10 ^ m <= 10 ^ 16 * delta * 10 ^ m) by (apply Z.mul_le_mono_nonneg_r; unfold delta; lia);
    lia.
  { lia. }
  cbn [fraction_loop]. set (t := 10 ^ m) in *.
  assert (Ht10 : 10 ^ (m + 1) = 10 * t) by (unfold t; rewrite Z.add_1_r, Z.pow_succ_r by lia; reflexivity).
  assert (Hland : Z.land (p2 * 10) (u64 (Z.shiftl 1 s - 1)) = (p2 * 10) mod one).
  { rewrite Z.shiftl_1_l. rewrite u64_small by (fold one; lia). replace (2 ^ s - 1) with (Z.ones s) by (rewrite Z.ones_equiv; lia). apply Z.land_ones. lia. }
  rewrite (u64_small (p2 * 10)) by lia. rewrite Hland. rewrite Z.shiftr_div_pow2 by lia. fold one.
  pose proof (Z.div_mod (p2 * 10) one ltac:(lia)) as Hdm. pose proof (Z.mod_pos_bound (p2 * 10) one ltac:(lia)) as Hr.
  assert (Hd : 0 <= p2 * 10 / one <= 9). { split; [apply Z.div_pos; lia|]. assert (p2 * 10 / one < 10); [|lia]. apply Z.div_lt_upper_bound; lia. }
  set (d := p2 * 10 / one) in *. set (r := (p2 * 10) mod one) in *. clearbody d r.
  assert (Hdt : 0 <= delta * t) by (apply Z.mul_nonneg_nonneg; lia).
  rewrite (u64_small (delta * t * 10)) by lia.
  replace (delta * t * 10) with (delta * 10 ^ (m + 1)) by (rewrite Ht10; ring).
  destruct (Z.leb_spec r (delta * 10 ^ (m + 1))) as [Hst|Hst].
  - rewrite Z.shiftl_1_l. fold one. rewrite (u64_small one) by lia.
    destruct (round_spec (u64 (dist * 10)) (delta * 10 ^ (m + 1)) one ltac:(lia) ltac:(rewrite Ht10; lia) 16 d r ltac:(lia)) as (i & Hi & -> & Hle);
      [rewrite Ht10; lia|lia|].
    cbn [rbind]. unfold generated. cbn [fst snd]. split; [unfold len in *; rewrite app_length; cbn [length]; lia|].
    split; [apply good_snoc; [exact Hgood|lia|lia]|]. exists 0, (m + 1). split; [lia|]. split; [lia|]. split; [lia|].
    rewrite digits_snoc, Z.pow_0_r, Z.mul_1_r.
    assert (EM : MP * 10 ^ (m + 1) = (digits_of buffer * 10 + (d - i)) * one + (r + i * one)).
    { rewrite Ht10. replace (MP * (10 * t)) with (MP * t * 10) by ring. rewrite HM.
      replace ((digits_of buffer * one + p2) * 10) with (digits_of buffer * 10 * one + p2 * 10) by ring. rewrite Hdm. ring. }
    assert (0 <= i * one) by (apply Z.mul_nonneg_nonneg; lia).
    assert (EM2 : MM * 10 ^ (m + 1) = MP * 10 ^ (m + 1) - delta * 10 ^ (m + 1)) by (unfold delta; ring). lia.
  - apply IH.
    + lia.
    + unfold len in *. rewrite app_length. cbn [length]. lia.
    + lia.
    + apply good_snoc; [exact Hgood|exact Hd|congruence].
    + destruct buffer; discriminate.
    + exact Hr.
    + rewrite digits_snoc, Ht10. replace (MP * (10 * t)) with (MP * t * 10) by ring. rewrite HM.
      replace ((digits_of buffer * one + p2) * 10) with (digits_of buffer * 10 * one + p2 * 10) by ring. rewrite Hdm. ring.
    + exact Hst.
Qed.
End gen.

Lemma largest_spec n : 0 < n < 2 ^ 32 -> exists k, (1 <= k <= 10)%nat /\ find_largest_pow10 n = (10 ^ (Z.of_nat k - 1), Z.of_nat k) /\
  10 ^ (Z.of_nat k - 1) <= n < 10 ^ Z.of_nat k.
Proof.
  intros Hn. unfold find_largest_pow10.
  destruct (Z.leb_spec 1000000000 n); [exists 10%nat; (split; [lia|split; [reflexivity|change (10 ^ (Z.of_nat 10 - 1)) with 1000000000; change (10 ^ Z.of_nat 10) with 10000000000; lia]])|].
  destruct (Z.leb_spec 100000000 n); [exists 9%nat; (split; [lia|split; [reflexivity|change (10 ^ (Z.of_nat 9 - 1)) with 100000000; change (10 ^ Z.of_nat 9) with 1000000000; lia]])|].
  destruct (Z.leb_spec 10000000 n); [exists 8%nat; (split; [lia|split; [reflexivity|change (10 ^ (Z.of_nat 8 - 1)) with 10000000; change (10 ^ Z.of_nat 8) with 100000000; lia]])|].
  destruct (Z.leb_spec 1000000 n); [exists 7%nat; (split; [lia|split; [reflexivity|change (10 ^ (Z.of_nat 7 - 1)) with 1000000; change (10 ^ Z.of_nat 7) with 10000000; lia]])|].
  destruct (Z.leb_spec 100000 n); [exists 6%nat; (split; [lia|split; [reflexivity|change (10 ^ (Z.of_nat 6 - 1)) with 100000; change (10 ^ Z.of_nat 6) with 1000000; lia]])|].
  destruct (Z.leb_spec 10000 n); [exists 5%nat; (split; [lia|split; [reflexivity|change (10 ^ (Z.of_nat 5 - 1)) with 10000; change (10 ^ Z.of_nat 5) with 100000; lia]])|].
  destruct (Z.leb_spec 1000 n); [exists 4%nat; (split; [lia|split; [reflexivity|change (10 ^ (Z.of_nat 4 - 1)) with 1000; change (10 ^ Z.of_nat 4) with 10000; lia]])|].
  destruct (Z.leb_spec 100 n); [exists 3%nat; (split; [lia|split; [reflexivity|change (10 ^ (Z.of_nat 3 - 1)) with 100; change (10 ^ Z.of_nat 3) with 1000; lia]])|].
  destruct (Z.leb_spec 10 n); [exists 2%nat; (split; [lia|split; [reflexivity|change (10 ^ (Z.of_nat 2 - 1)) with 10; change (10 ^ Z.of_nat 2) with 100; lia]])|].
  exists 1%nat. (split; [lia|split; [reflexivity|change (10 ^ (Z.of_nat 1 - 1)) with 1; change (10 ^ Z.of_nat 1) with 10; lia]]).
Qed.
Lemma digit_gen_spec exponent s MP MM w : 32 <= s <= 60 -> 0 < MM <= MP -> 2 ^ s <= MP < 2 ^ 64 -> MP <= 10 ^ 16 * (MP - MM) ->
  exists r, grisu2_digit_gen exponent (Diyfp MM (- s)) w (Diyfp MP (- s)) = Ok r /\ generated s MP MM exponent r.
Proof.
  intros Hs HMM HMP Hwide. unfold grisu2_digit_gen. cbn [df de]. rewrite Z.opp_involutive.
  rewrite (proj2 (Z.leb_le 0 s)), (proj2 (Z.ltb_lt s 64)) by lia. cbn [andb rbind].
  assert (Ho : 2 ^ 32 <= 2 ^ s <= 2 ^ 60) by (split; apply Z.pow_le_mono_r; lia).
  rewrite (u64_small (MP - MM)) by lia. set (dist := u64 (MP - df w)).
  rewrite Z.shiftr_div_pow2 by lia. rewrite Z.shiftl_1_l, (u64_small (2 ^ s - 1)) by lia.
  replace (2 ^ s - 1) with (Z.ones s) by (rewrite Z.ones_equiv; lia). rewrite Z.land_ones by lia.
  pose proof (Z.div_mod MP (2 ^ s) ltac:(lia)) as Hdm. pose proof (Z.mod_pos_bound MP (2 ^ s) ltac:(lia)) as Hr.
  assert (Hp1 : 0 < MP / 2 ^ s < 2 ^ 32).
  { split; [apply Z.div_str_pos; lia|]. apply Z.div_lt_upper_bound; [lia|]. change (2 ^ 64) with (2 ^ 32 * 2 ^ 32) in HMP.
    assert (2 ^ 32 * 2 ^ 32 <= 2 ^ s * 2 ^ 32) by (apply Z.mul_le_mono_nonneg_r; lia). lia. }
  assert (Eu : u32 (MP / 2 ^ s) = MP / 2 ^ s) by (unfold u32; apply Z.mod_small; unfold W32; lia). rewrite Eu.
  set (p1 := MP / 2 ^ s) in *. set (p2 := MP mod 2 ^ s) in *. clearbody p1 p2 dist.
  destruct (largest_spec p1 Hp1) as (k & Hk & -> & Hpk). rewrite Nat2Z.id.
  assert (Hlead : 10 ^ (Z.of_nat k - 1) * 2 ^ s <= MP). { assert (10 ^ (Z.of_nat k - 1) * 2 ^ s <= p1 * 2 ^ s) by (apply Z.mul_le_mono_nonneg_r; lia). lia. }
  assert (Hgd : good_digits []) by (split; [constructor|discriminate]).
  pose proof (integral_spec s MP MM exponent k Hs ltac:(lia) ltac:(lia) ltac:(lia) Hlead Hwide dist p2 Hr k p1 [] ltac:(lia) ltac:(lia)
    ltac:(unfold len; cbn [length]; lia) Hgd ltac:(lia) ltac:(intros _; lia) ltac:(unfold digits_of; cbn [fold_left]; lia) ltac:(lia)) as Hi.
  destruct (integral_loop k s p1 p2 (10 ^ (Z.of_nat k - 1)) dist (MP - MM) exponent []) as [[r|b]| | |]; try contradiction; cbn [rbind].
  - exists r. split; [reflexivity|exact Hi].
  - destruct Hi as (Hlen & Hgood & HM & Hgo).
    assert (Hne : b <> []) by (intros ->; unfold len in Hlen; cbn in Hlen; lia).
    pose proof (fraction_spec s MP MM exponent k Hs ltac:(lia) ltac:(lia) Hlead Hwide 20 0 dist p2 b ltac:(lia) ltac:(lia) ltac:(lia) Hgood Hne Hr
      ltac:(rewrite Z.pow_0_r; lia) ltac:(rewrite Z.pow_0_r; lia)) as Hf.
    rewrite Z.pow_0_r, Z.mul_1_r in Hf.
    destruct (fraction_loop 20 s p2 dist (MP - MM) exponent 0 b) as [r| | |]; try contradiction. exists r. split; [reflexivity|exact Hf].
Qed.

(** ** The result lies between the midpoints *)
Lemma upper_step mp cf A B : 0 < A -> 0 <= mp < 2 ^ 64 -> 2 * Z.abs (cf * A - B) <= A ->
  ((mp * cf + 2 ^ 63) / 2 ^ 64 - 1) * 2 ^ 64 * A < mp * B.
Proof.
  intros HA Hmp Hc. set (w := (mp * cf + 2 ^ 63) / 2 ^ 64). pose proof (Z.mul_div_le (mp * cf + 2 ^ 63) (2 ^ 64) ltac:(lia)) as Hw. fold w in Hw.
  assert (H1 : (w - 1) * 2 ^ 64 * A <= (mp * cf - 2 ^ 63) * A) by (apply Z.mul_le_mono_nonneg_r; lia).
  assert (H2 : mp * (2 * (cf * A) - A) <= mp * (2 * B)) by (apply Z.mul_le_mono_nonneg_l; lia).
  assert (H3 : mp * A < 2 ^ 64 * A) by (apply Z.mul_lt_mono_pos_r; lia). lia.
Qed.
Lemma lower_step mm cf A B : 0 < A -> 0 <= mm < 2 ^ 64 -> 2 * Z.abs (cf * A - B) <= A ->
  mm * B < ((mm * cf + 2 ^ 63) / 2 ^ 64 + 1) * 2 ^ 64 * A.
Proof.
  intros HA Hmm Hc. set (w := (mm * cf + 2 ^ 63) / 2 ^ 64). pose proof (Z.mul_succ_div_gt (mm * cf + 2 ^ 63) (2 ^ 64) ltac:(lia)) as Hw. fold w in Hw.
  assert (H1 : (mm * cf + 2 ^ 63) * A < (w + 1) * 2 ^ 64 * A) by (apply Z.mul_lt_mono_pos_r; lia).
  assert (H2 : mm * (2 * B) <= mm * (2 * (cf * A) + A)) by (apply Z.mul_le_mono_nonneg_l; lia).
  assert (H3 : mm * A < 2 ^ 64 * A) by (apply Z.mul_lt_mono_pos_r; lia). lia.
Qed.

Lemma scaled D p N v u q : 0 <= p -> 0 <= q -> 0 <= u -> 0 <= v ->
  (inject_Z D * (10 # 1) ^ (p - u) * ((10 # 1) ^ u * (2 # 1) ^ q) == inject_Z (D * 10 ^ p * 2 ^ q))%Q /\
  (inject_Z N * (2 # 1) ^ (v - q) * ((10 # 1) ^ u * (2 # 1) ^ q) == inject_Z (N * 10 ^ u * 2 ^ v))%Q.
Proof.
  intros Hp Hq Hu Hv. rewrite !inject_Z_mult, !Zpower_Qpower by assumption. change (inject_Z 10) with (10 # 1)%Q. change (inject_Z 2) with (2 # 1)%Q.
  split.
  - assert (E : ((10 # 1) ^ p == (10 # 1) ^ (p - u) * (10 # 1) ^ u)%Q).
    { rewrite <- Qpower_plus by (intros H; discriminate H). replace (p - u + u) with p by lia. reflexivity. } rewrite E. ring.
  - assert (E : ((2 # 1) ^ v == (2 # 1) ^ (v - q) * (2 # 1) ^ q)%Q).
    { rewrite <- Qpower_plus by (intros H; discriminate H). replace (v - q + q) with v by lia. reflexivity. } rewrite E. ring.
Qed.
Lemma scale_pos u q : (0 < (10 # 1) ^ u * (2 # 1) ^ q)%Q.
Proof. apply Qmult_lt_0_compat; apply Qpower_0_lt; reflexivity. Qed.
Lemma Q2Qc_lt a b : (a < b)%Q -> (Q2Qc a < Q2Qc b)%Qc.
Proof. intros H. unfold Qclt. cbn [this Q2Qc]. rewrite !Qred_correct. exact H. Qed.
Lemma decimal_lt_binary D p N v u q : 0 <= p -> 0 <= q -> 0 <= u -> 0 <= v -> D * 10 ^ p * 2 ^ q < N * 10 ^ u * 2 ^ v ->
  (decimal D (p - u) < binary N (v - q))%Qc.
Proof.
  intros Hp Hq Hu Hv H. destruct (scaled D p N v u q Hp Hq Hu Hv) as [E1 E2]. apply Q2Qc_lt. apply (Qmult_lt_r _ _ _ (scale_pos u q)).
  rewrite E1, E2. rewrite <- Zlt_Qlt. exact H.
Qed.
Lemma binary_lt_decimal D p N v u q : 0 <= p -> 0 <= q -> 0 <= u -> 0 <= v -> N * 10 ^ u * 2 ^ v < D * 10 ^ p * 2 ^ q ->
  (binary N (v - q) < decimal D (p - u))%Qc.
Proof.
  intros Hp Hq Hu Hv H. destruct (scaled D p N v u q Hp Hq Hu Hv) as [E1 E2]. apply Q2Qc_lt. apply (Qmult_lt_r _ _ _ (scale_pos u q)).
  rewrite E1, E2. rewrite <- Zlt_Qlt. exact H.
Qed.

Lemma wide_enough m e s cf mm : is_double m e -> 10 <= s <= 62 -> 2 ^ 63 <= cf ->
  mm = (if closer m e then (4 * m - 1) * 2 ^ (s - 1) else (2 * m - 1) * 2 ^ s) ->
  let w_plus := ((2 * m + 1) * 2 ^ s * cf + 2 ^ 63) / 2 ^ 64 in
  let w_minus := (mm * cf + 2 ^ 63) / 2 ^ 64 in
  w_plus - 1 <= 10 ^ 16 * (w_plus - 1 - (w_minus + 1)).
Proof.
  intros (Hm & _ & _) Hs Hcf Emm. cbv zeta.
  set (wp := ((2 * m + 1) * 2 ^ s * cf + 2 ^ 63) / 2 ^ 64). set (wm := (mm * cf + 2 ^ 63) / 2 ^ 64).
  pose proof (Z.mul_div_le ((2 * m + 1) * 2 ^ s * cf + 2 ^ 63) (2 ^ 64) ltac:(lia)) as Hw1. fold wp in Hw1.
  pose proof (Z.mul_succ_div_gt ((2 * m + 1) * 2 ^ s * cf + 2 ^ 63) (2 ^ 64) ltac:(lia)) as Hw2. fold wp in Hw2.
  pose proof (Z.mul_div_le (mm * cf + 2 ^ 63) (2 ^ 64) ltac:(lia)) as Hw3. fold wm in Hw3. clearbody wp wm.
  set (X := 2 ^ s * cf). assert (HX : 2 ^ 73 <= X).
  { unfold X. change (2 ^ 73) with (2 ^ 10 * 2 ^ 63). apply Z.mul_le_mono_nonneg; [lia| |lia|lia]. apply Z.pow_le_mono_r; lia. }
  assert (E2 : 2 ^ s = 2 * 2 ^ (s - 1)) by (rewrite <- Z.pow_succ_r by lia; f_equal; lia).
  assert (Emp : (2 * m + 1) * 2 ^ s * cf = (2 * m + 1) * X) by (unfold X; ring). rewrite Emp in *.
  unfold closer in Emm. destruct (Z.eqb_spec m (2 ^ 52)) as [->|_]; cbn [andb] in Emm.
  - assert (Hmm : 2 * (mm * cf) <= (4 * 2 ^ 52 - 1) * X).
    { rewrite Emm. unfold X. destruct (-1074 <? e); rewrite E2; [apply Z.eq_le_incl; ring|].
      replace (2 * ((2 * 2 ^ 52 - 1) * (2 * 2 ^ (s - 1)) * cf)) with ((4 * 2 ^ 52 - 2) * (2 * 2 ^ (s - 1) * cf)) by ring.
      rewrite <- E2. fold X. apply Z.mul_le_mono_nonneg_r; lia. }
    clearbody X. lia.
  - assert (Hmm : mm * cf = (2 * m - 1) * X) by (rewrite Emm; unfold X; ring).
    rewrite Hmm in Hw3. clearbody X. assert (m * X <= 2 ^ 53 * X) by (apply Z.mul_le_mono_nonneg_r; lia). lia.
Qed.

Theorem grisu2_spec m e : is_double m e -> exists ds x, grisu2 m e = Ok (ds, x) /\ 1 <= len ds <= 17 /\ good_digits ds /\
  -400 <= x <= 400 /\ rounds_to (decimal (digits_of ds) x) m e.
Proof.
  intros Hd. destruct (boundaries_spec m e Hd) as (s & Hs & Hmp & Eb). pose proof Hd as (Hm & He & _). unfold grisu2. rewrite Eb. cbn [rbind df de].
  set (E := e - 1 - s). destruct (cached_spec E ltac:(unfold E; lia)) as (cf & ce & k & -> & Hse & Hcf & Hk & Hce & Hclose). cbn [rbind fst snd].
  set (mm := if closer m e then (4 * m - 1) * 2 ^ (s - 1) else (2 * m - 1) * 2 ^ s) in *. set (mp := (2 * m + 1) * 2 ^ s) in *.
  assert (Hps : 0 < 2 ^ (s - 1)) by (apply Z.pow_pos_nonneg; lia).
  assert (E2 : 2 ^ s = 2 * 2 ^ (s - 1)) by (rewrite <- Z.pow_succ_r by lia; f_equal; lia).
  assert (Hmm : 0 <= mm < 2 ^ 64).
  { assert (mm <= mp). { unfold mm, mp. rewrite E2. destruct (closer m e); nia. }
    assert (0 <= mm) by (unfold mm; rewrite E2; destruct (closer m e); repeat apply Z.mul_nonneg_nonneg; lia). lia. }
  pose proof (wide_enough m e s cf mm Hd Hs ltac:(lia) eq_refl) as Hwide. cbv zeta in Hwide. fold mp in Hwide.
  set (w := diyfp_mul (Diyfp (2 * m * 2 ^ s) E) (Diyfp cf ce)). clearbody w.
  rewrite !diyfp_mul_spec by (cbn [df]; lia). cbn [df de].
  unfold close_power in Hclose. apply Z.leb_le in Hclose.
  set (A := 2 ^ (ce + 1200) * 10 ^ 400) in *. set (B := 10 ^ (k + 400) * 2 ^ 1200) in *.
  assert (HA : 0 < A). { unfold A. apply Z.mul_pos_pos; apply Z.pow_pos_nonneg; lia. }
  replace (cf * 2 ^ (ce + 1200) * 10 ^ 400) with (cf * A) in Hclose by (unfold A; ring).
  pose proof (upper_step mp cf A B HA ltac:(lia) Hclose) as Hup. pose proof (lower_step mm cf A B HA Hmm Hclose) as Hlow.
  assert (HMP : 2 ^ 62 - 1 <= (mp * cf + 2 ^ 63) / 2 ^ 64 - 1 < 2 ^ 64 - 1).
  { assert (2 ^ 62 <= (mp * cf + 2 ^ 63) / 2 ^ 64 < 2 ^ 64); [|lia]. split.
    - apply Z.div_le_lower_bound; [lia|]. assert (2 ^ 63 * 2 ^ 63 <= mp * cf) by (apply Z.mul_le_mono_nonneg; lia). lia.
    - apply Z.div_lt_upper_bound; [lia|]. assert (mp * cf <= (2 ^ 64 - 1) * (2 ^ 64 - 1)) by (apply Z.mul_le_mono_nonneg; lia). lia. }
  assert (HMM : 0 <= (mm * cf + 2 ^ 63) / 2 ^ 64).
  { apply Z.div_pos; [|lia]. assert (0 <= mm * cf) by (apply Z.mul_nonneg_nonneg; lia). lia. }
  set (wp := (mp * cf + 2 ^ 63) / 2 ^ 64) in *. set (wm := (mm * cf + 2 ^ 63) / 2 ^ 64) in *. clearbody wp wm.
  rewrite (u64_small (wm + 1)), (u64_small (wp - 1)) by lia.
  set (s' := - (E + ce + 64)). replace (E + ce + 64) with (- s') by (unfold s'; lia).
  assert (Hs' : 32 <= s' <= 60) by (unfold s'; lia). assert (2 ^ s' <= 2 ^ 60) by (apply Z.pow_le_mono_r; lia).
  destruct (digit_gen_spec (- k) s' (wp - 1) (wm + 1) w Hs' ltac:(lia) ltac:(lia) Hwide) as ([ds x] & -> & Hlen & Hgood & a & b & Ha & Hb & Ex & Hlo & Hhi).
  cbn [fst snd] in *. exists ds, x. split; [reflexivity|]. split; [exact Hlen|]. split; [exact Hgood|]. split; [lia|].
  assert (HC : 0 < 2 ^ 64 * A) by lia. assert (Hb10 : 0 < 10 ^ b) by (apply Z.pow_pos_nonneg; lia).
  set (D := digits_of ds) in *. clearbody D.
  assert (Hscale : D * 10 ^ a * 2 ^ s' * (2 ^ 64 * A) = D * 10 ^ (a + 400) * 2 ^ (1200 - E)).
  { unfold A. replace (1200 - E) with (s' + (64 + (ce + 1200))) by (unfold s'; lia). rewrite (Z.pow_add_r 10 a 400), (Z.pow_add_r 2 s'), (Z.pow_add_r 2 64) by lia. ring. }
  assert (HB : B * 10 ^ b = 10 ^ (k + 400 + b) * 2 ^ 1200) by (unfold B; rewrite (Z.pow_add_r 10 (k + 400) b) by lia; ring).
  assert (G1 : D * 10 ^ (a + 400) * 2 ^ (1200 - E) < mp * (10 ^ (k + 400 + b) * 2 ^ 1200)).
  { rewrite <- Hscale, <- HB. apply (Z.le_lt_trans _ ((wp - 1) * 10 ^ b * (2 ^ 64 * A))); [apply Z.mul_le_mono_nonneg_r; lia|].
    replace ((wp - 1) * 10 ^ b * (2 ^ 64 * A)) with ((wp - 1) * 2 ^ 64 * A * 10 ^ b) by ring. rewrite Z.mul_assoc. apply Z.mul_lt_mono_pos_r; lia. }
  assert (G2 : mm * (10 ^ (k + 400 + b) * 2 ^ 1200) < D * 10 ^ (a + 400) * 2 ^ (1200 - E)).
  { rewrite <- Hscale, <- HB. apply (Z.lt_le_trans _ ((wm + 1) * 10 ^ b * (2 ^ 64 * A))); [|apply Z.mul_le_mono_nonneg_r; lia].
    replace ((wm + 1) * 10 ^ b * (2 ^ 64 * A)) with ((wm + 1) * 2 ^ 64 * A * 10 ^ b) by ring. rewrite Z.mul_assoc. apply Z.mul_lt_mono_pos_r; lia. }
  assert (HE : 0 <= 1200 - E) by (unfold E; lia). rewrite Ex. replace (- k + a - b) with (a + 400 - (k + 400 + b)) by lia.
  split.
  - unfold below, mm in *. destruct (closer m e).
    + replace (e - 2) with (s - 1 + 1200 - (1200 - E)) by (unfold E; lia). apply binary_lt_decimal; try lia.
      rewrite (Z.pow_add_r 2 (s - 1) 1200) by lia. eapply Z.le_lt_trans; [|exact G2]. apply Z.eq_le_incl. ring.
    + replace (e - 1) with (s + 1200 - (1200 - E)) by (unfold E; lia). apply binary_lt_decimal; try lia.
      rewrite (Z.pow_add_r 2 s 1200) by lia. eapply Z.le_lt_trans; [|exact G2]. apply Z.eq_le_incl. ring.
  - unfold above. replace (e - 1) with (s + 1200 - (1200 - E)) by (unfold E; lia). apply decimal_lt_binary; try lia.
    rewrite (Z.pow_add_r 2 s 1200) by lia. eapply Z.lt_le_trans; [exact G1|]. apply Z.eq_le_incl. unfold mp. ring.
Qed.
