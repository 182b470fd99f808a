From Verif Require Import Prelude Utils.

Lemma ll_of_ok z : LL_MIN <= z <= LL_MAX -> ll_of z = Ok z.
Proof. intros H. unfold ll_of, in_ll. destruct (Z.leb_spec LL_MIN z); [|lia]. destruct (Z.leb_spec z LL_MAX); [reflexivity|lia]. Qed.

Lemma int_of_ok z : INT_MIN <= z <= INT_MAX -> int_of z = Ok z.
Proof. intros H. unfold int_of, in_int. destruct (Z.leb_spec INT_MIN z); [|lia]. destruct (Z.leb_spec z INT_MAX); [reflexivity|lia]. Qed.
Lemma int_of_inv z v : int_of z = Ok v -> v = z /\ INT_MIN <= z <= INT_MAX.
Proof.
  unfold int_of, in_int. destruct (Z.leb_spec INT_MIN z), (Z.leb_spec z INT_MAX); cbn; try discriminate.
  intros [= <-]. lia.
Qed.
Lemma int_of_cases z : int_of z = Ok z \/ int_of z = UB UBOverflow.
Proof. unfold int_of. destruct (in_int z); auto. Qed.

Lemma pow_abs_pos b n : 0 <= n -> b <> 0 -> 1 <= Z.abs (b ^ n).
Proof. intros Hn Hb. pose proof (Z.pow_nonzero b n Hb Hn). lia. Qed.

Lemma sq_not_2_63 b : b * b <= 9223372036854775808 -> b * b <= 9223372036854775807.
Proof.
  intros H. rewrite <- Z.abs_square in *. set (a := Z.abs b) in *. assert (0 <= a) by (unfold a; lia).
  destruct (Z_le_gt_dec a 3037000499) as [Hle|Hgt].
  - pose proof (Z.mul_le_mono_nonneg a 3037000499 a 3037000499). lia.
  - pose proof (Z.mul_le_mono_nonneg 3037000500 a 3037000500 a). lia.
Qed.
Lemma abs_prod_ge p s t : p <> 0 -> 0 <= s -> 1 <= t -> s <= Z.abs (p * s * t).
Proof.
  intros Hp Hs Ht. rewrite Z.abs_mul, (Z.abs_mul p s), (Z.abs_eq s), (Z.abs_eq t) by lia.
  assert (1 <= Z.abs p) by lia. set (a := Z.abs p) in *. clearbody a.
  transitivity (a * s); [nia|]. nia.
Qed.
Lemma sq_pos a : a <> 0 -> 1 <= a * a.
Proof. nia. Qed.

Lemma ipow_loop_spec fuel : forall result base exp,
  0 <= exp < 2 ^ Z.of_nat fuel -> (fuel > 0)%nat -> result <> 0 ->
  LL_MIN <= result * base ^ exp <= LL_MAX -> LL_MIN <= result <= LL_MAX ->
  ipow_loop fuel result base exp = Ok (result * base ^ exp).
Proof.
  induction fuel as [|fuel IH]; intros result base exp Hexp Hf Hr HT Hrr; [lia|].
  rewrite Nat2Z.inj_succ, Z.pow_succ_r in Hexp by lia.
  cbn [ipow_loop].
  assert (exp = 2 * Z.shiftr exp 1 + (if Z.odd exp then 1 else 0)) as Hsplit.
  { rewrite <- Z.div2_spec. rewrite (Z.div2_odd exp) at 1. destruct (Z.odd exp); reflexivity. }
  set (h := Z.shiftr exp 1) in *.
  assert (0 <= h) by (unfold h; apply Z.shiftr_nonneg; lia).
  unfold LL_MIN, LL_MAX in *.
  destruct (Z.odd exp) eqn:Hodd.
  - (* odd *)
    assert (base ^ exp = base * (base ^ h * base ^ h)) as Hp.
    { rewrite Hsplit, Z.pow_add_r, Z.pow_1_r, Z.mul_comm by lia. f_equal.
      rewrite <- Z.pow_add_r by lia. f_equal. lia. }
    assert (-9223372036854775808 <= result * base <= 9223372036854775807) as Hprod.
    { destruct (Z.eq_dec base 0) as [->|Hb]; [lia|].
      pose proof (pow_abs_pos base h ltac:(lia) Hb) as Hge.
      rewrite Hp in HT. set (q := base ^ h) in *. set (p := result * base) in *.
      replace (result * (base * (q * q))) with (p * (q * q)) in HT by (unfold p; ring).
      pose proof (sq_pos q ltac:(lia)) as Hqq. set (t := q * q) in *. clearbody t p. nia. }
    rewrite ll_of_ok by exact Hprod. cbn [rbind].
    destruct (Z.eqb_spec h 0) as [Hh|Hh].
    + f_equal. rewrite Hp, Hh, Z.pow_0_r. ring.
    + destruct (Z.eq_dec base 0) as [->|Hb].
      * rewrite ll_of_ok by (unfold LL_MIN, LL_MAX; lia). cbn [rbind]. 
        (* result becomes 0: handle directly *)
        clear IH. rewrite Hp. replace (result * (0 * (0 ^ h * 0 ^ h))) with 0 by ring.
        replace (result * 0) with 0 by ring. change (0 * 0) with 0.
        assert (h < 2 ^ Z.of_nat fuel) as Hh2 by lia.
        assert (h > 0) as Hh3 by lia. clearbody h. clear -Hh2 Hh3.
        revert h Hh2 Hh3. induction fuel as [|fuel IH]; intros h H1 H2; [simpl in H1; lia|].
        cbn [ipow_loop]. rewrite Nat2Z.inj_succ, Z.pow_succ_r in H1 by lia.
        assert (h = 2 * Z.shiftr h 1 + (if Z.odd h then 1 else 0)) as Hs.
        { rewrite <- Z.div2_spec. rewrite (Z.div2_odd h) at 1. destruct (Z.odd h); reflexivity. }
        change (ll_of (0 * 0)) with (@Ok Z 0). 
        destruct (Z.odd h); cbn [rbind]; (destruct (Z.eqb_spec (Z.shiftr h 1) 0); [reflexivity|apply IH; lia]).
      * assert (base * base <= 9223372036854775807) as Hbb.
        { rewrite Hp in HT.
          replace h with (Z.succ (h - 1)) in HT by lia. rewrite Z.pow_succ_r in HT by lia.
          pose proof (pow_abs_pos base (h - 1) ltac:(lia) Hb) as Hge.
          set (q := base ^ (h - 1)) in *.
          set (p := result * base) in *. assert (p <> 0) by (unfold p; apply Z.neq_mul_0; auto).
          replace (result * (base * (base * q * (base * q)))) with (p * (base * base) * (q * q)) in HT by (unfold p; ring).
          apply sq_not_2_63. pose proof (sq_pos q ltac:(lia)). pose proof (sq_pos base ltac:(lia)).
          pose proof (abs_prod_ge p (base * base) (q * q) ltac:(lia) ltac:(lia) ltac:(lia)). lia. }
        pose proof (Z.square_nonneg base). rewrite ll_of_ok by (unfold LL_MIN, LL_MAX; lia). cbn [rbind].
        assert (result * base * (base * base) ^ h = result * base ^ exp) as Heq.
        { rewrite Hp, Z.pow_mul_l. ring. }
        rewrite IH; [rewrite Heq; reflexivity|lia| |apply Z.neq_mul_0; auto|rewrite Heq; exact HT|exact Hprod].
        destruct fuel; [simpl in Hexp; lia|lia].
  - assert (base ^ exp = base ^ h * base ^ h) as Hp.
    { rewrite Hsplit, <- Z.pow_add_r by lia. f_equal. lia. }
    cbn [rbind]. destruct (Z.eqb_spec h 0) as [Hh|Hh].
    + f_equal. rewrite Hp, Hh, Z.pow_0_r. ring.
    + assert (base * base <= 9223372036854775807) as Hbb.
      { destruct (Z.eq_dec base 0) as [->|Hb]; [lia|].
        rewrite Hp in HT.
        replace h with (Z.succ (h - 1)) in HT by lia. rewrite Z.pow_succ_r in HT by lia.
        pose proof (pow_abs_pos base (h - 1) ltac:(lia) Hb) as Hge.
        set (q := base ^ (h - 1)) in *.
        replace (result * (base * q * (base * q))) with (result * (base * base) * (q * q)) in HT by ring.
          apply sq_not_2_63. pose proof (sq_pos q ltac:(lia)). pose proof (sq_pos base ltac:(lia)).
          pose proof (abs_prod_ge result (base * base) (q * q) ltac:(lia) ltac:(lia) ltac:(lia)). lia. }
      pose proof (Z.square_nonneg base). rewrite ll_of_ok by (unfold LL_MIN, LL_MAX; lia). cbn [rbind].
      assert (result * (base * base) ^ h = result * base ^ exp) as Heq.
      { rewrite Hp, Z.pow_mul_l. ring. }
      rewrite IH; [rewrite Heq; reflexivity|lia| |exact Hr|rewrite Heq; exact HT|exact Hrr].
      destruct fuel; [simpl in Hexp; lia|lia].
Qed.

Theorem ipow_exact b e : 0 <= e <= LL_MAX -> LL_MIN <= b ^ e <= LL_MAX -> ipow b e = Ok (b ^ e).
Proof.
  intros He Hb. unfold ipow. rewrite ipow_loop_spec.
  - rewrite Z.mul_1_l. reflexivity.
  - unfold LL_MAX in He. change (Z.of_nat 64) with 64. lia.
  - lia.
  - lia.
  - rewrite Z.mul_1_l. exact Hb.
  - unfold LL_MIN, LL_MAX. lia.
Qed.

(** Termination: the only outcomes for a non-negative exponent are a value or an overflow. *)
Lemma ipow_loop_total fuel : forall result base exp,
  0 <= exp < 2 ^ Z.of_nat fuel -> (fuel > 0)%nat ->
  (exists v, ipow_loop fuel result base exp = Ok v) \/ ipow_loop fuel result base exp = UB UBOverflow.
Proof.
  induction fuel as [|fuel IH]; intros result base exp Hexp Hf; [lia|].
  rewrite Nat2Z.inj_succ, Z.pow_succ_r in Hexp by lia.
  cbn [ipow_loop].
  assert (exp = 2 * Z.shiftr exp 1 + (if Z.odd exp then 1 else 0)) as Hsplit.
  { rewrite <- Z.div2_spec. rewrite (Z.div2_odd exp) at 1. destruct (Z.odd exp); reflexivity. }
  assert (0 <= Z.shiftr exp 1) by (apply Z.shiftr_nonneg; lia).
  assert (forall r, (exists v, (let exp := Z.shiftr exp 1 in if exp =? 0 then Ok r
     else let* base := ll_of (base * base) in ipow_loop fuel r base exp) = Ok v) \/
     (let exp := Z.shiftr exp 1 in if exp =? 0 then Ok r
     else let* base := ll_of (base * base) in ipow_loop fuel r base exp) = UB UBOverflow) as Hgo.
  { intros r. cbv zeta. destruct (Z.eqb_spec (Z.shiftr exp 1) 0); [left; eauto|].
    unfold ll_of. destruct (in_ll (base * base)); cbn [rbind]; [|right; reflexivity].
    apply IH; [destruct (Z.odd exp); lia|]. destruct fuel; [simpl in Hexp; destruct (Z.odd exp); lia|lia]. }
  destruct (Z.odd exp).
  - unfold ll_of. destruct (in_ll (result * base)); cbn [rbind]; [apply Hgo|right; reflexivity].
  - cbn [rbind]. apply Hgo.
Qed.
Theorem ipow_total b e : 0 <= e <= LL_MAX -> (exists v, ipow b e = Ok v) \/ ipow b e = UB UBOverflow.
Proof. intros He. apply ipow_loop_total; [unfold LL_MAX in He; change (Z.of_nat 64) with 64; lia|lia]. Qed.
