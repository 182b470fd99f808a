From Verif Require Import Prelude Bytes Base64 BinInput SpecBin Base64Proofs BytesProofs BinProofs.

Lemma bitc_testbit c k : 0 <= k -> bitc c k = Z.b2z (Z.testbit (schar c) k).
Proof.
  intros Hk. unfold bitc. change 1 with (Z.ones 1). rewrite Z.land_ones by lia. change (2 ^ 1) with 2.
  rewrite Z.testbit_spec' by lia. rewrite Z.shiftr_div_pow2 by lia. reflexivity.
Qed.

Lemma testbit_mod256 z k : 0 <= k < 8 -> Z.testbit (z mod 256) k = Z.testbit z k.
Proof.
  intros Hk. change 256 with (2 ^ 8). rewrite Z.mod_pow2_bits_low by lia. reflexivity.
Qed.

Lemma testbit_schar c k : 0 <= k < 8 -> Z.testbit (schar c) k = Z.testbit (byte c) k.
Proof.
  intros Hk. unfold schar. destruct (byte c <? 128); [reflexivity|].
  rewrite <- (testbit_mod256 (byte c - 256)) by exact Hk.
  replace (byte c - 256) with (byte c + (-1) * 256) by lia. rewrite Z.mod_add by lia.
  apply testbit_mod256, Hk.
Qed.

Lemma testbit_to_char z k : 0 <= k < 8 -> Z.testbit (schar (to_char z)) k = Z.testbit z k.
Proof. intros Hk. rewrite testbit_schar by exact Hk. rewrite byte_to_char. apply testbit_mod256, Hk. Qed.

(** Effect of writing an arbitrary value at bit [k] of a byte on bit [j]. *)
Lemma bitc_set_any c k j v : 0 <= k < 8 -> 0 <= j < 8 ->
  bitc (setc c k v) j =
    if j <? k then bitc c j
    else if j =? k then v mod 2
    else Z.lor (bitc c j) ((v / 2 ^ (j - k)) mod 2).
Proof.
  intros Hk Hj. rewrite bitc_testbit by lia. unfold setc. rewrite testbit_to_char by exact Hj.
  rewrite Z.lor_spec, Z.land_spec, Z.lnot_spec, !Z.shiftl_spec by lia.
  destruct (Z.ltb_spec j k) as [Hlt|Hge].
  - rewrite (Z.testbit_neg_r 1), (Z.testbit_neg_r v) by lia. cbn [negb].
    rewrite andb_true_r, orb_false_r. symmetry. apply bitc_testbit. lia.
  - destruct (Z.eqb_spec j k) as [->|Hne].
    + rewrite Z.sub_diag. change (Z.testbit 1 0) with true. cbn [negb]. rewrite andb_false_r.
      cbn [orb]. rewrite Z.testbit_spec' by lia. rewrite Z.pow_0_r, Z.div_1_r. reflexivity.
    + replace (Z.testbit 1 (j - k)) with false
        by (symmetry; apply Z.bits_above_log2; [lia|change (Z.log2 1) with 0; lia]).
      cbn [negb]. rewrite andb_true_r. rewrite bitc_testbit by lia.
      rewrite <- (Z.testbit_spec' v (j - k)) by lia.
      destruct (Z.testbit (schar c) j), (Z.testbit v (j - k)); reflexivity.
Qed.

Theorem bin_set_any b i v : bin_wf b -> 0 <= i < bin_size b ->
  exists b', bin_set b i v = (Ok tt, b') /\ bin_size b' = bin_size b /\ bin_get b' i = Ok (v mod 2) /\
    (forall j, 0 <= j -> j <> i -> (j / 8 <> i / 8 \/ i < j) -> bin_get b' j = bin_get b j) /\
    (forall j x, j < i -> j / 8 = i / 8 -> bin_get b j = Ok x ->
       bin_get b' j = Ok (Z.lor x ((v / 2 ^ (i - j)) mod 2))).
Proof.
  intros Hwf Hi. destruct (bin_set_ok b i v Hwf Hi) as (c & Hc & Hset).
  exists (bin_upd b i v c).
  pose proof (bin_upd_wf b i v c Hwf) as Hwf'. pose proof (bin_upd_size b i v c) as Hs.
  destruct (section_range b i Hwf Hi) as (Hsec & Hk & _).
  assert (Hsame : forall j, 0 <= j < bin_size b -> j / 8 = i / 8 ->
            bin_get (bin_upd b i v c) j = Ok (bitc (setc c (7 - i mod 8) v) (7 - j mod 8)) /\ bin_get b j = Ok (bitc c (7 - j mod 8))).
  { intros j Hj E. destruct (bin_get_ok _ j Hwf') as (c' & Hc' & ->); [lia|].
    destruct (bin_get_ok _ j Hwf) as (c0 & Hc0 & ->); [lia|]. rewrite E in Hc', Hc0.
    unfold bin_upd in Hc'. cbn [b_input] in Hc'.
    rewrite list_lookup_insert in Hc' by (eapply lookup_lt_Some; exact Hc).
    injection Hc' as <-. rewrite Hc in Hc0. injection Hc0 as <-. split; reflexivity. }
  repeat split; auto.
  - destruct (Hsame i Hi eq_refl) as [-> _]. rewrite bitc_set_any by lia.
    rewrite Z.ltb_irrefl, Z.eqb_refl. reflexivity.
  - intros j Hj0 Hne Hor.
    destruct (Z_lt_le_dec j (bin_size b)) as [Hj|Hj].
    2:{ unfold bin_get. rewrite Hs. destruct (Z.leb_spec (bin_size b) j); [reflexivity|lia]. }
    destruct (Z.eq_dec (j / 8) (i / 8)) as [E|E].
    + destruct (Hsame j ltac:(lia) E) as [-> ->].
      pose proof (Z.div_mod i 8 ltac:(lia)). pose proof (Z.div_mod j 8 ltac:(lia)).
      pose proof (Z.mod_pos_bound j 8 ltac:(lia)). rewrite bitc_set_any by lia.
      destruct (Z.ltb_spec (7 - j mod 8) (7 - i mod 8)); [reflexivity|]. exfalso. lia.
    + destruct (bin_get_ok _ j Hwf') as (c' & Hc' & ->); [lia|].
      destruct (bin_get_ok _ j Hwf) as (c0 & Hc0 & ->); [lia|].
      destruct (section_range b j Hwf ltac:(lia)) as (Hs' & _ & _).
      unfold bin_upd in Hc'. cbn [b_input] in Hc'.
      rewrite list_lookup_insert_ne in Hc' by lia. congruence.
  - intros j x Hlt E Hx.
    assert (0 <= j < bin_size b) as Hj.
    { split; [|lia]. pose proof (Z.div_mod j 8 ltac:(lia)). pose proof (Z.mod_pos_bound j 8 ltac:(lia)). nia. }
    destruct (Hsame j Hj E) as [-> Hold]. rewrite Hold in Hx. injection Hx as <-.
    pose proof (Z.div_mod i 8 ltac:(lia)). pose proof (Z.div_mod j 8 ltac:(lia)).
    pose proof (Z.mod_pos_bound j 8 ltac:(lia)). rewrite bitc_set_any by lia.
    destruct (Z.ltb_spec (7 - j mod 8) (7 - i mod 8)); [lia|].
    destruct (Z.eqb_spec (7 - j mod 8) (7 - i mod 8)); [lia|].
    do 5 f_equal. lia.
Qed.
