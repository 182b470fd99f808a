From Verif Require Import Prelude Bytes Base64 BinInput SpecBin Base64Proofs BytesProofs.

Definition bitc (c : ascii) (k : Z) : Z := Z.land (Z.shiftr (schar c) k) 1.
Definition setc (c : ascii) (k v : Z) : ascii :=
  to_char (Z.lor (Z.land (schar c) (Z.lnot (Z.shiftl 1 k))) (Z.shiftl v k)).

Definition z8 : list Z := Z.of_nat <$> seq 0 8.
Lemma z8_spec k : 0 <= k < 8 -> In k z8.
Proof.
  intros H. apply elem_of_list_In, elem_of_list_fmap. exists (Z.to_nat k). split; [lia|].
  apply elem_of_seq. lia.
Qed.

Lemma bitc_set_sweep :
  forallb (fun c => forallb (fun k => forallb (fun j => forallb (fun v =>
    bitc (setc c k v) j =? (if j =? k then v else bitc c j)) [0; 1]) z8) z8) all_bytes = true.
Proof. vm_compute. reflexivity. Qed.
Lemma bitc_set c k j v : 0 <= k < 8 -> 0 <= j < 8 -> v = 0 \/ v = 1 ->
  bitc (setc c k v) j = if j =? k then v else bitc c j.
Proof.
  intros Hk Hj Hv. pose proof bitc_set_sweep as H.
  rewrite forallb_forall in H. specialize (H c (all_bytes_spec c)).
  rewrite forallb_forall in H. specialize (H k (z8_spec k Hk)).
  rewrite forallb_forall in H. specialize (H j (z8_spec j Hj)).
  rewrite forallb_forall in H. apply Z.eqb_eq, H. destruct Hv; subst; simpl; auto.
Qed.
Lemma bitc_01 c k : bitc c k = 0 \/ bitc c k = 1.
Proof.
  unfold bitc. set (x := Z.shiftr _ _).
  assert (Z.land x 1 = x mod 2) as -> by (change 1 with (Z.ones 1); apply Z.land_ones; lia).
  pose proof (Z.mod_pos_bound x 2 ltac:(lia)). lia.
Qed.
Lemma bitc_zero k : 0 <= k < 8 -> bitc "000"%char k = 0.
Proof. intros H. unfold bitc. change (schar "000") with 0. rewrite Z.shiftr_0_l. reflexivity. Qed.

Lemma byte_ext_sweep : forall c d, (forallb (fun k => bitc c k =? bitc d k) z8 = true) -> c = d.
Proof.
  intros c d H. assert (implb (forallb (fun k => bitc c k =? bitc d k) z8) (aeq c d) = true) as E.
  { clear H. revert c d. apply sweep2. vm_compute. reflexivity. }
  rewrite H in E. apply aeq_true, E.
Qed.
Lemma byte_ext c d : (forall k, 0 <= k < 8 -> bitc c k = bitc d k) -> c = d.
Proof.
  intros H. apply byte_ext_sweep, forallb_forall. intros k Hk. apply Z.eqb_eq, H.
  apply elem_of_list_In, elem_of_list_fmap in Hk as (n & -> & Hn). apply elem_of_seq in Hn. lia.
Qed.

(** ** Objects built through the API *)

Definition bin_wf (b : bininput) : Prop :=
  0 <= b_remain b < 8 /\ (len (b_input b) = 0 -> b_remain b = 0) /\ len (b_input b) * 8 <= bin_limit.

Lemma bin_wf_size b : bin_wf b -> bin_size b = len (b_input b) * 8 - b_remain b.
Proof.
  intros (H1 & H2 & H3). unfold bin_size. apply u64_id. unfold bin_limit, W64 in *.
  unfold len in *. lia.
Qed.

Lemma bin_of_size_wf n : 0 <= n <= bin_limit -> bin_wf (bin_of_size n) /\ bin_size (bin_of_size n) = n.
Proof.
  intros Hn.
  assert (bin_wf (bin_of_size n) /\ len (b_input (bin_of_size n)) * 8 - b_remain (bin_of_size n) = n) as [Hwf Hs].
  { unfold bin_wf, bin_of_size. cbn [b_remain b_input]. unfold len. rewrite replicate_length.
    pose proof (Z.div_mod n 8 ltac:(lia)) as E. pose proof (Z.mod_pos_bound n 8 ltac:(lia)) as B.
    assert (0 <= n / 8) by (apply Z.div_pos; lia). unfold bin_limit in *.
    destruct (Z.eqb_spec (n mod 8) 0); repeat split; try lia. }
  split; [exact Hwf|]. rewrite bin_wf_size by exact Hwf. exact Hs.
Qed.

Lemma section_range b i : bin_wf b -> 0 <= i < bin_size b ->
  0 <= i / 8 < len (b_input b) /\ 0 <= 7 - i mod 8 < 8 /\ s32 (i / 8) = i / 8.
Proof.
  intros Hwf Hi. pose proof (bin_wf_size b Hwf) as Hs. destruct Hwf as (H1 & H2 & H3).
  pose proof (Z.mod_pos_bound i 8 ltac:(lia)). 
  assert (0 <= i / 8) by (apply Z.div_pos; lia).
  assert (i / 8 < len (b_input b)) by (apply Z.div_lt_upper_bound; lia).
  unfold bin_limit in H3.
  repeat split; try lia. apply s32_id. unfold INT_MIN, INT_MAX. lia.
Qed.

Lemma vget_some {A} (l : list A) i : 0 <= i < len l -> exists x, l !! Z.to_nat i = Some x /\ vget l i = Ok x.
Proof.
  intros H. unfold vget, len in *. destruct (lookup_lt_is_Some_2 l (Z.to_nat i)) as [x Hx]; [lia|].
  exists x. rewrite Hx. destruct (Z.leb_spec 0 i); [auto|lia].
Qed.

Lemma bin_get_ok b i : bin_wf b -> 0 <= i < bin_size b ->
  exists c, b_input b !! Z.to_nat (i / 8) = Some c /\ bin_get b i = Ok (bitc c (7 - i mod 8)).
Proof.
  intros Hwf Hi. destruct (section_range b i Hwf Hi) as (Hs & Hk & He).
  destruct (vget_some (b_input b) (i / 8) Hs) as (c & Hc & Hv). exists c. split; [exact Hc|].
  unfold bin_get. destruct (Z.leb_spec (bin_size b) i); [lia|]. rewrite He.
  destruct (Z.eqb_spec (i / 8) (len (b_input b))); [lia|]. rewrite Hv. reflexivity.
Qed.

Definition bin_upd (b : bininput) (i v : Z) (c : ascii) : bininput :=
  BinInput (b_remain b) (<[Z.to_nat (i / 8) := setc c (7 - i mod 8) v]> (b_input b)).

Lemma bin_set_ok b i v : bin_wf b -> 0 <= i < bin_size b ->
  exists c, b_input b !! Z.to_nat (i / 8) = Some c /\ bin_set b i v = (Ok tt, bin_upd b i v c).
Proof.
  intros Hwf Hi. destruct (section_range b i Hwf Hi) as (Hs & Hk & He).
  destruct (vget_some (b_input b) (i / 8) Hs) as (c & Hc & Hv). exists c. split; [exact Hc|].
  unfold bin_set. destruct (Z.leb_spec (bin_size b) i); [lia|]. rewrite Hv. reflexivity.
Qed.

Lemma bin_upd_wf b i v c : bin_wf b -> bin_wf (bin_upd b i v c).
Proof. unfold bin_wf, bin_upd, len. cbn [b_remain b_input]. rewrite insert_length. auto. Qed.
Lemma bin_upd_size b i v c : bin_size (bin_upd b i v c) = bin_size b.
Proof. unfold bin_size, bin_upd, len. cbn [b_remain b_input]. rewrite insert_length. reflexivity. Qed.

Lemma bin_set_wf b i v : bin_wf b -> bin_wf (snd (bin_set b i v)) /\ bin_size (snd (bin_set b i v)) = bin_size b.
Proof.
  intros Hwf. unfold bin_set. destruct (bin_size b <=? i); [auto|].
  destruct (vget (b_input b) (i / 8)) as [c| | |]; cbn [snd]; try (split; [exact Hwf|reflexivity]).
  split; [apply (bin_upd_wf b i v c Hwf)|apply (bin_upd_size b i v c)].
Qed.

Lemma div8_eq i j : i / 8 = j / 8 -> i mod 8 = j mod 8 -> i = j.
Proof. intros H1 H2. rewrite (Z.div_mod i 8), (Z.div_mod j 8), H1, H2 by lia. reflexivity. Qed.

Lemma bin_get_upd b i v c j : bin_wf b -> 0 <= i < bin_size b -> 0 <= j < bin_size b -> v = 0 \/ v = 1 ->
  b_input b !! Z.to_nat (i / 8) = Some c ->
  bin_get (bin_upd b i v c) j = if j =? i then Ok v else bin_get b j.
Proof.
  intros Hwf Hi Hj Hv Hc.
  destruct (bin_get_ok (bin_upd b i v c) j) as (c' & Hc' & ->); [apply bin_upd_wf, Hwf|rewrite bin_upd_size; exact Hj|].
  destruct (bin_get_ok b j Hwf Hj) as (c0 & Hc0 & ->).
  destruct (section_range b i Hwf Hi) as (Hs & Hk & _).
  destruct (section_range b j Hwf Hj) as (Hs' & Hk' & _).
  unfold bin_upd in Hc'. cbn [b_input] in Hc'.
  destruct (decide (i / 8 = j / 8)) as [E|E].
  - rewrite <- E in *. rewrite list_lookup_insert in Hc' by (eapply lookup_lt_Some; exact Hc).
    injection Hc' as <-. assert (c0 = c) as -> by congruence.
    rewrite bitc_set by (lia || exact Hv).
    destruct (Z.eqb_spec j i) as [->|Hne].
    + rewrite Z.eqb_refl. reflexivity.
    + destruct (Z.eqb_spec (7 - j mod 8) (7 - i mod 8)); [|reflexivity].
      exfalso. apply Hne, div8_eq; [congruence|lia].
  - rewrite list_lookup_insert_ne in Hc' by lia. assert (c' = c0) as -> by congruence.
    destruct (Z.eqb_spec j i) as [->|]; [congruence|reflexivity].
Qed.

Theorem bin_set_get b i v : bin_wf b -> 0 <= i < bin_size b -> v = 0 \/ v = 1 ->
  exists b', bin_set b i v = (Ok tt, b') /\ bin_size b' = bin_size b /\ bin_get b' i = Ok v /\
    forall j, j <> i -> 0 <= j -> bin_get b' j = bin_get b j.
Proof.
  intros Hwf Hi Hv. destruct (bin_set_ok b i v Hwf Hi) as (c & Hc & Hset).
  exists (bin_upd b i v c). repeat split; auto.
  - apply bin_upd_size.
  - rewrite bin_get_upd by (auto; lia). rewrite Z.eqb_refl. reflexivity.
  - intros j Hne Hj. destruct (Z_lt_le_dec j (bin_size b)).
    + rewrite bin_get_upd by (auto; lia). destruct (Z.eqb_spec j i); [congruence|reflexivity].
    + unfold bin_get. rewrite bin_upd_size. destruct (Z.leb_spec (bin_size b) j); [reflexivity|lia].
Qed.

Lemma bin_get_zero n i : 0 <= n <= bin_limit -> 0 <= i < n -> bin_get (bin_of_size n) i = Ok 0.
Proof.
  intros Hn Hi. destruct (bin_of_size_wf n Hn) as [Hwf Hs].
  destruct (bin_get_ok (bin_of_size n) i Hwf) as (c & Hc & ->); [lia|].
  unfold bin_of_size in Hc. cbn [b_input] in Hc. apply lookup_replicate in Hc as [-> _].
  rewrite bitc_zero; [reflexivity|]. pose proof (Z.mod_pos_bound i 8). lia.
Qed.

Lemma bin_fill_spec l : forall k b, bin_wf b -> 0 <= k -> bin_size b = k + len l ->
  Forall (fun v => v = 0 \/ v = 1) l ->
  exists b', bin_fill l k b = (Ok tt, b') /\ bin_wf b' /\ bin_size b' = bin_size b /\
    forall i, 0 <= i < bin_size b ->
      bin_get b' i = if i <? k then bin_get b i else
        match l !! Z.to_nat (i - k) with Some v => Ok v | None => bin_get b i end.
Proof.
  induction l as [|v l IH]; intros k b Hwf Hk Hsize Hall.
  - exists b. repeat split; auto; try apply Hwf. intros i Hi. unfold len in Hsize. simpl in Hsize.
    destruct (Z.ltb_spec i k); [reflexivity|lia].
  - inversion Hall as [|? ? Hv Hl]; subst. unfold len in Hsize. cbn [length] in Hsize.
    destruct (bin_set_get b k v Hwf ltac:(lia) Hv) as (b1 & Hset & Hs1 & Hget & Hoth).
    cbn [bin_fill]. rewrite Hset. cbn [ebind].
    destruct (IH (k + 1) b1) as (b' & Hfill & Hwf' & Hs' & Hg); auto; try lia.
    { pose proof (bin_set_wf b k v Hwf) as [Hw _]. rewrite Hset in Hw. exact Hw. }
    { unfold len. lia. }
    exists b'. repeat split; auto; try apply Hwf'; try congruence.
    intros i Hi. rewrite Hg by lia.
    destruct (Z.ltb_spec i (k + 1)).
    + destruct (Z.ltb_spec i k).
      * apply Hoth; lia.
      * assert (i = k) as -> by lia. rewrite Z.sub_diag. cbn. exact Hget.
    + destruct (Z.ltb_spec i k); [lia|].
      replace (Z.to_nat (i - k)) with (S (Z.to_nat (i - (k + 1)))) by lia. cbn [lookup list_lookup].
      destruct (l !! Z.to_nat (i - (k + 1))); [reflexivity|]. apply Hoth; lia.
Qed.

Theorem bin_of_list_spec l : len l <= bin_limit -> Forall (fun v => v = 0 \/ v = 1) l ->
  exists b, bin_of_list l = Ok b /\ bin_wf b /\ bin_size b = len l /\
    forall i v, l !! i = Some v -> bin_get b (Z.of_nat i) = Ok v.
Proof.
  intros Hl Hall. destruct (bin_of_size_wf (len l)) as [Hwf Hs]; [unfold len in *; lia|].
  destruct (bin_fill_spec l 0 (bin_of_size (len l)) Hwf) as (b & Hfill & Hwf' & Hs' & Hg); [lia|lia|exact Hall|].
  exists b. unfold bin_of_list. rewrite Hfill. repeat split; try apply Hwf'; try congruence.
  intros i v Hi. pose proof (lookup_lt_Some _ _ _ Hi). unfold len in *.
  rewrite Hg by lia. destruct (Z.ltb_spec (Z.of_nat i) 0); [lia|].
  rewrite Z.sub_0_r, Nat2Z.id, Hi. reflexivity.
Qed.

(** ** Out of range *)
Theorem bin_get_out b i : bin_size b <= i -> bin_get b i = Throw index_exn.
Proof. intros H. unfold bin_get. destruct (Z.leb_spec (bin_size b) i); [reflexivity|lia]. Qed.
Theorem bin_set_out b i v : bin_size b <= i -> bin_set b i v = (Throw index_exn, b).
Proof. intros H. unfold bin_set. destruct (Z.leb_spec (bin_size b) i); [reflexivity|lia]. Qed.

(** ** Serialisation *)
Lemma substr_head c s : substr (c :: s) 0 1 = Ok [c].
Proof.
  unfold substr. change (u64 0) with 0. change (u64 1) with 1.
  destruct (Z.ltb_spec (len (c :: s)) 0); [unfold len in *; lia|].
  destruct (Z.leb_spec (len (c :: s)) 1).
  - destruct s; [reflexivity|unfold len in *; cbn [length] in *; lia].
  - reflexivity.
Qed.
Lemma substr_tail c s : len s < W64 -> substr (c :: s) 1 (len (c :: s) - 1) = Ok s.
Proof.
  intros Hs. unfold substr. change (u64 1) with 1.
  destruct (Z.ltb_spec (len (c :: s)) 1); [unfold len in *; cbn [length] in *; lia|].
  unfold len in *. cbn [length] in *. rewrite u64_id by (unfold W64 in *; lia).
  destruct (Z.leb_spec (Z.of_nat (S (length s))) (Z.of_nat (S (length s)) - 1)); [lia|].
  cbn [drop]. change (Z.to_nat 1) with 1%nat. cbn [drop]. rewrite drop_0. f_equal.
  apply take_ge. lia.
Qed.

Theorem bin_data_roundtrip b : -128 <= b_remain b <= 127 -> len (b_input b) < W64 ->
  bin_of_data (bin_data b) = Ok b.
Proof.
  intros Hr Hl. unfold bin_of_data, bin_data. rewrite decode_encode by congruence. cbn [rbind].
  rewrite substr_head. cbn [rbind]. rewrite substr_tail by exact Hl. cbn [rbind nth].
  rewrite schar_to_char by exact Hr. destruct b; reflexivity.
Qed.

(** ** Reachable objects *)
Lemma bin_fill_wf l : forall k b, bin_wf b -> bin_wf (snd (bin_fill l k b)).
Proof.
  induction l as [|v l IH]; intros k b Hwf; [exact Hwf|]. cbn [bin_fill].
  destruct (bin_set b k v) as [[[]| | |] b1] eqn:E; cbn [ebind snd];
    (pose proof (bin_set_wf b k v Hwf) as [Hw _]; rewrite E in Hw; cbn [snd] in Hw); auto.
Qed.

Lemma bin_wf_load b : bin_wf b -> bin_of_data (bin_data b) = Ok b.
Proof.
  intros (H1 & H2 & H3). apply bin_data_roundtrip; [lia|]. unfold bin_limit, W64 in *. lia.
Qed.

Theorem bin_made_wf b : bin_made b -> bin_wf b.
Proof.
  induction 1 as [n Hn|l b Hl Hb|b i v Hb IH Hi|b b' Hb IH Hl].
  - apply bin_of_size_wf, Hn.
  - unfold bin_of_list in Hb.
    pose proof (bin_fill_wf l 0 (bin_of_size (len l))) as Hw.
    destruct (bin_fill l 0 (bin_of_size (len l))) as [[[]| | |] b1]; try discriminate.
    injection Hb as <-. apply Hw. apply bin_of_size_wf. unfold len in *. lia.
  - apply bin_set_wf, IH.
  - rewrite (bin_wf_load b IH) in Hl. congruence.
Qed.

Lemma bin_clean_made b : bin_clean b -> bin_made b.
Proof. induction 1; [eapply made_size|eapply made_list|eapply made_set|eapply made_load]; eauto. Qed.

(** Padding bits stay 0. *)
Definition pad_zero (b : bininput) : Prop :=
  forall i c, bin_size b <= i < len (b_input b) * 8 -> b_input b !! Z.to_nat (i / 8) = Some c -> bitc c (7 - i mod 8) = 0.

Lemma bin_set_pad b i v : bin_wf b -> 0 <= i -> is_bit v -> pad_zero b -> pad_zero (snd (bin_set b i v)).
Proof.
  intros Hwf Hi Hv Hp. destruct (Z_lt_le_dec i (bin_size b)) as [Hlt|Hge].
  2:{ rewrite bin_set_out by exact Hge. exact Hp. }
  destruct (bin_set_ok b i v Hwf ltac:(lia)) as (c & Hc & ->). cbn [snd].
  destruct (section_range b i Hwf ltac:(lia)) as (Hs & Hk & _).
  intros j c' Hj Hc'. rewrite bin_upd_size in Hj.
  unfold bin_upd in Hj, Hc'. cbn [b_input] in Hj, Hc'.
  unfold len in Hj. rewrite insert_length in Hj. fold (len (b_input b)) in Hj.
  pose proof (Z.mod_pos_bound j 8 ltac:(lia)).
  destruct (decide (i / 8 = j / 8)) as [E|E].
  - rewrite <- E in Hc'. rewrite list_lookup_insert in Hc' by (eapply lookup_lt_Some; exact Hc).
    injection Hc' as <-. rewrite bitc_set by (lia || exact Hv).
    destruct (Z.eqb_spec (7 - j mod 8) (7 - i mod 8)) as [Eq|_].
    + exfalso. assert (j = i) by (apply div8_eq; [congruence|lia]). lia.
    + apply Hp; [lia|]. rewrite <- E. exact Hc.
  - assert (0 <= j / 8) by (apply Z.div_pos; lia).
    rewrite list_lookup_insert_ne in Hc' by lia. apply Hp; [lia|exact Hc'].
Qed.

Lemma bin_fill_pad l : forall k b, bin_wf b -> 0 <= k -> Forall is_bit l -> pad_zero b -> pad_zero (snd (bin_fill l k b)).
Proof.
  induction l as [|v l IH]; intros k b Hwf Hk Hall Hp; [exact Hp|]. cbn [bin_fill].
  inversion Hall as [|? ? Hv Hl]; subst.
  pose proof (bin_set_pad b k v Hwf Hk Hv Hp) as Hp1.
  destruct (bin_set_wf b k v Hwf) as [Hw _].
  destruct (bin_set b k v) as [[[]| | |] b1] eqn:E; cbn [ebind snd] in *; auto. apply IH; auto. lia.
Qed.

Lemma bin_of_size_pad n : pad_zero (bin_of_size n).
Proof.
  intros i c Hi Hc. unfold bin_of_size in Hc. cbn [b_input] in Hc.
  apply lookup_replicate in Hc as [-> _]. apply bitc_zero. pose proof (Z.mod_pos_bound i 8). lia.
Qed.

Lemma bin_clean_pad b : bin_clean b -> pad_zero b.
Proof.
  induction 1 as [n Hn|l b Hl Hall Hb|b i v Hb IH Hi Hv|b b' Hb IH Hl].
  - apply bin_of_size_pad.
  - unfold bin_of_list in Hb.
    assert (bin_wf (bin_of_size (len l))) as Hw by (apply bin_of_size_wf; unfold len in *; lia).
    pose proof (bin_fill_pad l 0 (bin_of_size (len l)) Hw ltac:(lia) Hall (bin_of_size_pad _)) as Hp.
    destruct (bin_fill l 0 (bin_of_size (len l))) as [[[]| | |] b1]; try discriminate.
    injection Hb as <-. exact Hp.
  - apply bin_set_pad; auto. apply bin_made_wf, bin_clean_made, Hb.
  - rewrite (bin_wf_load b) in Hl by (apply bin_made_wf, bin_clean_made, Hb). injection Hl as <-; exact IH.
Qed.

Theorem bin_clean_canonical b1 b2 : bin_clean b1 -> bin_clean b2 -> bin_size b1 = bin_size b2 ->
  (forall i, 0 <= i < bin_size b1 -> bin_get b1 i = bin_get b2 i) -> b1 = b2.
Proof.
  intros H1 H2 Hs Hg.
  pose proof (bin_made_wf b1 (bin_clean_made b1 H1)) as W1.
  pose proof (bin_made_wf b2 (bin_clean_made b2 H2)) as W2.
  pose proof (bin_clean_pad b1 H1) as P1. pose proof (bin_clean_pad b2 H2) as P2.
  pose proof (bin_wf_size b1 W1) as S1. pose proof (bin_wf_size b2 W2) as S2.
  assert (b_remain b1 = b_remain b2 /\ len (b_input b1) = len (b_input b2)) as [Hr Hl].
  { destruct W1 as (? & ? & ?), W2 as (? & ? & ?). lia. }
  assert (b_input b1 = b_input b2) as Hi.
  { apply list_eq_same_length with (n := length (b_input b1)); [unfold len in Hl; lia|reflexivity|].
    intros k c1 c2 Hk Hc1 Hc2. apply byte_ext. intros j Hj.
    set (i := 8 * Z.of_nat k + (7 - j)).
    assert (i / 8 = Z.of_nat k) as Ediv by (symmetry; apply Z.div_unique with (7 - j); unfold i; lia).
    assert (i mod 8 = 7 - j) as Emod by (symmetry; apply Z.mod_unique with (Z.of_nat k); unfold i; lia).
    destruct (Z_lt_le_dec i (bin_size b1)) as [Hlt|Hge].
    - assert (0 <= i) by (unfold i; lia).
      specialize (Hg i ltac:(lia)).
      destruct (bin_get_ok b1 i W1 ltac:(lia)) as (d1 & Hd1 & E1).
      destruct (bin_get_ok b2 i W2 ltac:(lia)) as (d2 & Hd2 & E2).
      rewrite E1, E2 in Hg. rewrite Ediv, Nat2Z.id in Hd1, Hd2.
      assert (d1 = c1) as -> by congruence. assert (d2 = c2) as -> by congruence.
      rewrite Emod in Hg. replace (7 - (7 - j)) with j in Hg by lia. congruence.
    - pose proof (lookup_lt_Some _ _ _ Hc1). pose proof (lookup_lt_Some _ _ _ Hc2).
      specialize (P1 i c1). specialize (P2 i c2). rewrite Ediv, Nat2Z.id, Emod in P1, P2.
      replace (7 - (7 - j)) with j in P1, P2 by lia. unfold len in *.
      rewrite P1, P2; auto; unfold i; lia. }
  destruct b1, b2; cbn in *; congruence.
Qed.
