(** A strtod that rounds to nearest even, and the proof that it satisfies [correct_strtod]. It is not part of the program:
    it shows that the hypothesis of C107 can be met, and lets the examples run. *)
From Coq Require Import SpecFloat QArith Qcanon Qpower.
From Verif Require Import Prelude Float32 Json JsonText GrisuSpec SpecText FloatConv.
Local Open Scope Z_scope.

(** n / d rounded to an integer. *)
Definition half_even (n d : Z) : Z :=
  let q := n / d in let r := n mod d in
  if 2 * r <? d then q else if d <? 2 * r then q + 1 else if Z.even q then q else q + 1.
Definition K : Z := 2000.
Definition nearest_even (s : bool) (q : Qc) : f64 :=
  let N := Qnum (this q) * 2 ^ K in
  let d := Z.pos (Qden (this q)) in
  let e := Z.max (-1074) (Z.log2 (N / d) - K - 52) in
  let m := half_even N (d * 2 ^ (e + K)) in
  let '(m, e) := if m =? 2 ^ 53 then (2 ^ 52, e + 1) else (m, e) in
  match m with
  | Z.pos m => if 971 <? e then S754_infinity s else S754_finite s m e
  | _ => S754_zero s
  end.
Definition strtod_even : numtext := NumText nearest_even.

Lemma half_even_unique n d m : 0 < d -> (2 * m - 1) * d < 2 * n < (2 * m + 1) * d -> half_even n d = m.
Proof.
  intros Hd Hn. unfold half_even. pose proof (Z.div_mod n d ltac:(lia)) as E. pose proof (Z.mod_pos_bound n d Hd) as Hr.
  set (q := n / d) in *. set (r := n mod d) in *. clearbody q r.
  assert (Hq : q = m \/ q = m - 1).
  { assert (q < m + 1); [|assert (m - 2 < q); [|lia]].
    - apply (Z.mul_lt_mono_pos_l d); [lia|]. lia.
    - apply (Z.mul_lt_mono_pos_l d); [lia|]. lia. }
  destruct (Z.ltb_spec (2 * r) d); [destruct Hq as [->| ->]; [reflexivity|exfalso; lia]|].
  destruct (Z.ltb_spec d (2 * r)); [destruct Hq as [->| ->]; [exfalso; lia|lia]|].
  exfalso. assert (2 * r = d) by lia. destruct Hq as [->| ->]; lia.
Qed.

Lemma binary_scaled q M f : -K <= f -> 
  ((q < binary M f)%Qc <-> Qnum (this q) * 2 ^ K < M * (Z.pos (Qden (this q)) * 2 ^ (f + K))) /\
  ((binary M f < q)%Qc <-> M * (Z.pos (Qden (this q)) * 2 ^ (f + K)) < Qnum (this q) * 2 ^ K).
Proof.
  intros Hf. destruct q as [[n d] Hq]. cbn [this Qnum Qden]. unfold Qclt, binary. cbn [this Q2Qc]. rewrite Qred_correct.
  assert (E : (inject_Z M * (2 # 1) ^ f == (M * 2 ^ (f + K)) # (Z.to_pos (2 ^ K)))%Q).
  { assert (HK : 0 < 2 ^ K) by (apply Z.pow_pos_nonneg; unfold K; lia).
    rewrite (Qmake_Qdiv (M * 2 ^ (f + K))). rewrite Z2Pos.id by exact HK. rewrite inject_Z_mult, !Zpower_Qpower by (unfold K in *; lia). change (inject_Z 2) with (2 # 1)%Q.
    unfold Qdiv. rewrite Qpower_plus by (intros H; discriminate H). rewrite <- Qmult_assoc, <- Qmult_assoc, Qmult_inv_r, Qmult_1_r; [reflexivity|].
    apply Qpower_not_0. intros H; discriminate H. }
  rewrite E. unfold Qlt. cbn [Qnum Qden]. rewrite Z2Pos.id by (apply Z.pow_pos_nonneg; unfold K; lia).
  replace (M * 2 ^ (f + K) * Z.pos d) with (M * (Z.pos d * 2 ^ (f + K))) by ring. split; reflexivity.
Qed.
Lemma log2_div N d L : 0 < d -> 0 <= L -> d * 2 ^ L <= N < d * 2 ^ (L + 1) -> Z.log2 (N / d) = L.
Proof.
  intros Hd HL [H1 H2]. apply Z.log2_unique; [exact HL|]. split; [apply Z.div_le_lower_bound; lia|]. apply Z.div_lt_upper_bound; [lia|]. exact H2.
Qed.
Lemma log2_div_le N d L : 0 < d -> 0 <= L -> N < d * 2 ^ (L + 1) -> Z.log2 (N / d) <= L.
Proof.
  intros Hd HL H. assert (HH : N / d < 2 ^ (L + 1)) by (apply Z.div_lt_upper_bound; [lia|exact H]).
  destruct (Z.le_gt_cases (N / d) 0) as [Hn|Hp]; [rewrite Z.log2_nonpos by exact Hn; exact HL|]. assert (Z.log2 (N / d) < L + 1) by (apply Z.log2_lt_pow2; lia). lia.
Qed.

Theorem strtod_even_correct : correct_strtod strtod_even.
Proof.
  split; [intros s; vm_compute; reflexivity|]. intros s m e q (Hm & He & Hn) [Hlo Hhi]. cbn [strtod_even nearest]. unfold nearest_even.
  unfold above in Hhi. apply (proj1 (binary_scaled q (2 * Z.pos m + 1) (e - 1) ltac:(unfold K; lia))) in Hhi.
  assert (Hlo' : if closer (Z.pos m) e then (4 * Z.pos m - 1) * (Z.pos (Qden (this q)) * 2 ^ (e - 2 + K)) < Qnum (this q) * 2 ^ K
                 else (2 * Z.pos m - 1) * (Z.pos (Qden (this q)) * 2 ^ (e - 1 + K)) < Qnum (this q) * 2 ^ K).
  { unfold below in Hlo. destruct (closer (Z.pos m) e); [apply (proj2 (binary_scaled q (4 * Z.pos m - 1) (e - 2) ltac:(unfold K; lia))) in Hlo|apply (proj2 (binary_scaled q (2 * Z.pos m - 1) (e - 1) ltac:(unfold K; lia))) in Hlo]; exact Hlo. }
  clear Hlo. set (N := Qnum (this q) * 2 ^ K) in *. set (d := Z.pos (Qden (this q))) in *. assert (Hd : 0 < d) by (unfold d; lia). clearbody N d. clear q.
  set (c := d * 2 ^ (e - 2 + K)). assert (Hc : 0 < c) by (unfold c; apply Z.mul_pos_pos; [lia|apply Z.pow_pos_nonneg; unfold K; lia]).
  assert (E1 : d * 2 ^ (e - 1 + K) = 2 * c).
  { unfold c. replace (e - 1 + K) with (Z.succ (e - 2 + K)) by lia. rewrite Z.pow_succ_r by (unfold K; lia). ring. }
  assert (E0 : d * 2 ^ (e + K) = 4 * c).
  { unfold c. replace (e + K) with (Z.succ (Z.succ (e - 2 + K))) by lia. rewrite !Z.pow_succ_r by (unfold K; lia). ring. }
  assert (E52 : forall i, 0 <= i -> d * 2 ^ (e + K + i) = 4 * c * 2 ^ i).
  { intros i Hi. rewrite (Z.pow_add_r 2 (e + K) i) by (unfold K; lia). rewrite Z.mul_assoc, E0. reflexivity. }
  rewrite E1 in *. fold c in Hlo'.
  assert (Hlow : (2 * Z.pos m - 1) * (2 * c) < N).
  { destruct (closer (Z.pos m) e); lia. }
  assert (Hmc : Z.pos m * c <= (2 ^ 53 - 1) * c) by (apply Z.mul_le_mono_nonneg_r; lia).
  assert (Hup : Z.log2 (N / d) <= e + K + 52).
  { apply log2_div_le; [lia|unfold K; lia|]. replace (e + K + 52 + 1) with (e + K + 53) by lia. rewrite E52 by lia. lia. }
  destruct (decide (-1074 < e /\ N < d * 2 ^ (e + K + 52))) as [[Hsub Hlt]|Hns].
  - (* just below a power of two *)
    rewrite E52 in Hlt by lia. assert (Z.pos m = 2 ^ 52) as Em.
    { destruct Hn as [Hn|Hn]; [|lia]. assert ((2 * Z.pos m - 1) * (2 * c) < 2 ^ 53 * (2 * c)) by lia. apply Z.mul_lt_mono_pos_r in H; [|lia]. lia. }
    unfold closer in Hlo'. rewrite Em, Z.eqb_refl, (proj2 (Z.ltb_lt (-1074) e) Hsub) in Hlo'. cbn [andb] in Hlo'. rewrite Em in Hhi.
    assert (El : Z.log2 (N / d) = e + K + 51).
    { apply log2_div; [lia|unfold K; lia|]. replace (e + K + 51 + 1) with (e + K + 52) by lia. rewrite !E52 by lia. lia. }
    rewrite El. replace (Z.max (-1074) (e + K + 51 - K - 52)) with (e - 1) by lia. rewrite E1. rewrite (half_even_unique N (2 * c) (2 ^ 53)) by lia.
    rewrite Z.eqb_refl. replace (e - 1 + 1) with e by lia. change (2 ^ 52) with (Z.pos 4503599627370496) in *. rewrite (proj2 (Z.ltb_ge 971 e)) by lia.
    injection Em as ->. reflexivity.
  - assert (Ee : Z.max (-1074) (Z.log2 (N / d) - K - 52) = e).
    { destruct (decide (-1074 < e)) as [Hgt|Hgt]; [|lia]. assert (Hge : d * 2 ^ (e + K + 52) <= N) by lia.
      assert (El : Z.log2 (N / d) = e + K + 52); [|lia]. apply log2_div; [lia|unfold K; lia|]. split; [exact Hge|].
      replace (e + K + 52 + 1) with (e + K + 53) by lia. rewrite E52 by lia. lia. }
    rewrite Ee, E0. rewrite (half_even_unique N (4 * c) (Z.pos m)) by lia. rewrite (proj2 (Z.eqb_neq _ _)) by lia. rewrite (proj2 (Z.ltb_ge 971 e)) by lia. reflexivity.
Qed.
Lemma half_even_range n d : 0 < d -> n / d <= half_even n d <= n / d + 1.
Proof. intros Hd. unfold half_even. cbv zeta. repeat match goal with |- context [if ?b then _ else _] => destruct b end; lia. Qed.
Theorem strtod_even_double : returns_double strtod_even.
Proof.
  intros s q. cbn [strtod_even nearest]. unfold nearest_even. set (N := Qnum (this q) * 2 ^ K). set (d := Z.pos (Qden (this q))). assert (Hd : 0 < d) by (unfold d; lia). clearbody N d. clear q.
  set (e := Z.max (-1074) (Z.log2 (N / d) - K - 52)). assert (Hp : 0 < 2 ^ (e + K)) by (apply Z.pow_pos_nonneg; unfold K; lia).
  pose proof (half_even_range N (d * 2 ^ (e + K)) ltac:(apply Z.mul_pos_pos; assumption)) as Hm. set (m := half_even N (d * 2 ^ (e + K))) in *. clearbody m.
  rewrite <- Z.div_div in Hm by lia.
  assert (HB : m <= 2 ^ 53 /\ (2 ^ 52 <= m \/ e = -1074)).
  { destruct (Z.le_gt_cases (N / d) 0) as [Hn|Hn].
    - assert (e = -1074) as -> by (unfold e; rewrite Z.log2_nonpos by exact Hn; reflexivity). split; [|auto].
      assert (N / d / 2 ^ (-1074 + K) <= 0); [|lia]. apply Z.lt_succ_r. apply Z.div_lt_upper_bound; [exact Hp|]. lia.
    - pose proof (Z.log2_spec (N / d) Hn) as [L1 L2]. set (L := Z.log2 (N / d)) in *. assert (HL : 0 <= L) by apply Z.log2_nonneg. split.
      + assert (N / d / 2 ^ (e + K) < 2 ^ 53); [|lia]. apply Z.div_lt_upper_bound; [exact Hp|]. rewrite <- Z.pow_add_r by (unfold K; lia).
        eapply Z.lt_le_trans; [exact L2|]. apply Z.pow_le_mono_r; lia.
      + destruct (Z.le_gt_cases (L - K - 52) (-1074)) as [Hs|Hs]; [right; unfold e; lia|]. left. assert (Ee : e + K = L - 52) by (unfold e; lia). rewrite Ee in *.
        assert (2 ^ 52 <= N / d / 2 ^ (L - 52)); [|lia]. apply Z.div_le_lower_bound; [exact Hp|]. rewrite <- Z.pow_add_r by (unfold K in *; lia).
        replace (L - 52 + 52) with L by lia. exact L1. }
  assert (He : -1074 <= e) by (unfold e; lia). clearbody e. clear Hm.
  assert (Hfin : forall M E, M < 2 ^ 53 -> -1074 <= E -> (2 ^ 52 <= M \/ E = -1074) ->
    is_f64 (match M with Z.pos m => if 971 <? E then S754_infinity s else S754_finite s m E | _ => S754_zero s end)).
  { intros M E H1 H2 H3. destruct M as [|M|M]; try reflexivity. destruct (Z.ltb_spec 971 E); [reflexivity|]. apply f64_double. unfold is_double. lia. }
  destruct (Z.eqb_spec m (2 ^ 53)); [apply (Hfin (2 ^ 52) (e + 1)); lia|apply Hfin; lia].
Qed.
