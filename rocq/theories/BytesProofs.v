From Verif Require Import Prelude Bytes.

Lemma byte_range c : 0 <= byte c < 256.
Proof.
  unfold byte. pose proof (N_ascii_bounded c) as H. lia.
Qed.
Lemma byte_to_char z : byte (to_char z) = z mod 256.
Proof.
  unfold byte, to_char. pose proof (Z.mod_pos_bound z 256 ltac:(lia)).
  rewrite N_ascii_embedding; lia.
Qed.
Lemma to_char_byte c : to_char (byte c) = c.
Proof.
  unfold to_char. rewrite Z.mod_small by apply byte_range. unfold byte. rewrite N2Z.id. apply ascii_N_embedding.
Qed.
Lemma schar_range c : -128 <= schar c <= 127.
Proof. unfold schar. pose proof (byte_range c). destruct (Z.ltb_spec (byte c) 128); lia. Qed.
Lemma schar_to_char z : -128 <= z <= 127 -> schar (to_char z) = z.
Proof.
  intros H. unfold schar. rewrite byte_to_char.
  destruct (Z_lt_le_dec z 0).
  - replace (z mod 256) with (z + 256) by (apply Z.mod_unique with (-1); lia).
    destruct (Z.ltb_spec (z + 256) 128); lia.
  - rewrite Z.mod_small by lia. destruct (Z.ltb_spec z 128); lia.
Qed.

Lemma le_bytes_length n v : length (le_bytes n v) = n.
Proof. revert v; induction n as [|n IH]; intros v; [reflexivity|]. cbn. rewrite IH. reflexivity. Qed.

Lemma le_value_bytes n : forall v, 0 <= v < 256 ^ Z.of_nat n -> le_value (le_bytes n v) = v.
Proof.
  induction n as [|n IH]; intros v Hv.
  - simpl in *. lia.
  - rewrite Nat2Z.inj_succ, Z.pow_succ_r in Hv by lia.
    cbn [le_bytes le_value]. rewrite byte_to_char, Zmod_mod.
    rewrite IH; [pose proof (Z.div_mod v 256 ltac:(lia)); lia|].
    split; [apply Z.div_pos; lia|]. apply Z.div_lt_upper_bound; lia.
Qed.

Lemma s32_id z : INT_MIN <= z <= INT_MAX -> s32 z = z.
Proof. unfold s32, INT_MIN, INT_MAX, W32. intros H. rewrite Z.mod_small; lia. Qed.
Lemma s32_u32 z : s32 (u32 z) = s32 z.
Proof.
  unfold s32, u32. rewrite Zplus_mod_idemp_l. reflexivity.
Qed.
Lemma s32_range z : INT_MIN <= s32 z <= INT_MAX.
Proof. unfold s32, INT_MIN, INT_MAX, W32. pose proof (Z.mod_pos_bound (z + 2147483648) 4294967296). lia. Qed.
Lemma u64_id z : 0 <= z < W64 -> u64 z = z.
Proof. unfold u64. apply Z.mod_small. Qed.
Lemma u64_range z : 0 <= u64 z < W64.
Proof. unfold u64. apply Z.mod_pos_bound. reflexivity. Qed.

Theorem addr_bytes_roundtrip a : 0 <= a < W64 -> addr_of_bytes (bytes_of_addr a) = a.
Proof. intros H. unfold addr_of_bytes, bytes_of_addr. rewrite u64_id by exact H. apply le_value_bytes. exact H. Qed.
Theorem content_bytes_roundtrip v : INT_MIN <= v <= INT_MAX -> content_of_bytes (bytes_of_content v) = v.
Proof.
  intros H. unfold content_of_bytes, bytes_of_content. rewrite le_value_bytes.
  - rewrite s32_u32. apply s32_id, H.
  - unfold u32. apply Z.mod_pos_bound. reflexivity.
Qed.
