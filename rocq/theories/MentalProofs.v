(** Mental images. *)
From Verif Require Import Prelude Bytes Utils BinInput Ram Disc SpecDisc.
From Verif Require Import BytesProofs UtilsProofs TextProofs DiscCtorProofs RamProofs DiscProofs.

(** ** Sums over the cells of a RAM *)
Fixpoint lsum (f : Z -> Z -> Z) (es : list (Z * Z)) : Z :=
  match es with [] => 0 | (a, v) :: es' => f a v + lsum f es' end.
Definition msum (f : Z -> Z -> Z) (m : gmap Z Z) : Z := lsum f (map_to_list m).

Lemma lsum_perm f l1 l2 : l1 ≡ₚ l2 -> lsum f l1 = lsum f l2.
Proof. induction 1 as [|[a v] l1 l2 _ IH|[a v] [b w] l|l1 l2 l3 _ IH1 _ IH2]; cbn [lsum]; lia. Qed.
Lemma msum_empty f : msum f ∅ = 0.
Proof. unfold msum. rewrite map_to_list_empty. reflexivity. Qed.
Lemma msum_insert_none f m i v : m !! i = None -> msum f (<[i := v]> m) = f i v + msum f m.
Proof. intros H. unfold msum. rewrite (lsum_perm _ _ _ (map_to_list_insert m i v H)). reflexivity. Qed.
Lemma msum_insert f m i v : msum f (<[i := v]> m) = f i v + msum f m - (match m !! i with Some w => f i w | None => 0 end).
Proof.
  destruct (m !! i) as [w|] eqn:E.
  - rewrite <- (insert_delete m i w E), insert_insert.
    rewrite !msum_insert_none by apply lookup_delete. lia.
  - rewrite msum_insert_none by exact E. lia.
Qed.

(** ** One RAM *)
Lemma digits_length n : forall a b, length (digits_c n a b) = n.
Proof. induction n as [|n IH]; intros a b; [reflexivity|]. cbn. rewrite IH. reflexivity. Qed.
Lemma digits_enc base ds : 2 <= base -> Forall (fun d => 0 <= d < base) ds -> digits_c (length ds) (enc base ds) base = ds.
Proof.
  intros Hb. induction 1 as [|d ds Hd Hds IH]; [reflexivity|]. cbn [length digits_c enc].
  pose proof (enc_range base ds Hb Hds) as Hr.
  assert (0 <= base * enc base ds) by (apply Z.mul_nonneg_nonneg; lia).
  rewrite Z.rem_mod_nonneg, Z.quot_div_nonneg by lia.
  rewrite (Z.mul_comm base), Z.mod_add, Z.div_add, Z.mod_small, Z.div_small by lia.
  rewrite Z.add_0_l, IH. reflexivity.
Qed.

(** Whether the [j]-th digit of address [a] is positive. *)
Definition lit_digit (r : ram) (j : nat) (a : Z) : bool :=
  match digits_c (length (r_addresses r)) (s32 a) (r_base r) !! j with Some d => 0 <? d | None => false end.
Definition share (r : ram) (j : nat) (a v : Z) : Z := if lit_digit r j a then v else 0.
Definition vol (es : list (Z * Z)) : Z := lsum (fun _ v => Z.abs v) es.

Lemma add_digits_spec c : forall pieces ds, length pieces = length ds ->
  (forall a acc, (a, acc) ∈ pieces -> Z.abs acc + Z.abs c <= INT_MAX) ->
  exists ps, add_digits pieces ds c = Ok ps /\ length ps = length pieces /\
    forall j a acc, pieces !! j = Some (a, acc) ->
      ps !! j = Some (a, acc + match ds !! j with Some d => if 0 <? d then c else 0 | None => 0 end).
Proof.
  induction pieces as [|[a acc] pieces IH]; intros ds Hl Hb.
  - exists []. destruct ds; [|discriminate]. repeat split. intros j b w H. rewrite lookup_nil in H. discriminate.
  - destruct ds as [|d ds]; [discriminate|]. cbn [length] in Hl. cbn [add_digits].
    assert (Z.abs acc + Z.abs c <= INT_MAX) as Hacc by (apply (Hb a acc); left).
    assert ((if 0 <? d then int_of (acc + c) else Ok acc) = Ok (acc + (if 0 <? d then c else 0))) as ->.
    { destruct (0 <? d); [apply int_of_ok; unfold INT_MIN, INT_MAX in *; lia|f_equal; lia]. }
    destruct (IH ds ltac:(lia)) as (ps & -> & Hpl & Hps); [intros b w Hin; apply (Hb b w); right; exact Hin|].
    cbn [rbind]. eexists. split; [reflexivity|]. split; [cbn; lia|].
    intros [|j] b w H; cbn in H |- *; [injection H as <- <-; reflexivity|]. apply Hps, H.
Qed.

Lemma lit_zero r j : lit_digit r j 0 = false.
Proof.
  unfold lit_digit. change (s32 0) with 0. generalize (length (r_addresses r)) as n. intros n. revert j.
  induction n as [|n IH]; intros j; [reflexivity|]. cbn [digits_c].
  destruct j as [|j]; cbn [lookup list_lookup].
  - destruct (r_base r); reflexivity.
  - replace (Z.quot 0 (r_base r)) with 0 by (destruct (r_base r); reflexivity). apply IH.
Qed.

Lemma mental_loop_spec r : 2 <= r_base r -> forall es pieces, length pieces = length (r_addresses r) ->
  (forall a acc, (a, acc) ∈ pieces -> Z.abs acc + vol es <= INT_MAX) ->
  exists ps, mental_loop r es pieces = Ok ps /\ length ps = length pieces /\
    forall j a acc, pieces !! j = Some (a, acc) -> ps !! j = Some (a, acc + lsum (share r j) es).
Proof.
  intros Hbase. induction es as [|[x v] es IH]; intros pieces Hl Hb.
  - exists pieces. repeat split. intros j a acc H. cbn. rewrite Z.add_0_r. exact H.
  - cbn [mental_loop]. unfold vol in *. cbn [lsum] in Hb.
    assert (0 <= lsum (fun _ v => Z.abs v) es) as Hvol by (clear; induction es as [|[a v] es IH]; cbn [lsum]; lia).
    destruct (Z.eqb_spec x 0) as [->|Hx].
    + destruct (IH pieces Hl) as (ps & E & Hpl & Hps); [intros a acc Hin; specialize (Hb a acc Hin); lia|].
      exists ps. split; [exact E|]. split; [exact Hpl|]. intros j a acc H. rewrite (Hps j a acc H). cbn [lsum].
      unfold share at 2. rewrite lit_zero. reflexivity.
    + unfold convertToBase. destruct (Z.eqb_spec (r_base r) 0); [lia|]. cbn [andb rbind].
      destruct (add_digits_spec v pieces (digits_c (length (r_addresses r)) (s32 x) (r_base r))) as (p1 & -> & Hl1 & Hp1).
      { rewrite digits_length. exact Hl. }
      { intros a acc Hin. specialize (Hb a acc Hin). lia. }
      cbn [rbind]. destruct (IH p1) as (ps & E & Hpl & Hps); [lia| |].
      { intros a acc Hin. apply elem_of_list_lookup in Hin as [j Hj].
        destruct (pieces !! j) as [[b w]|] eqn:Ej.
        - pose proof (Hp1 j b w Ej) as E2. rewrite Hj in E2. injection E2 as <- ->.
          specialize (Hb a w ltac:(apply elem_of_list_lookup; eauto)).
          destruct (digits_c (length (r_addresses r)) (s32 x) (r_base r) !! j) as [dd|]; [destruct (0 <? dd)|]; lia.
        - apply lookup_ge_None in Ej. apply lookup_lt_Some in Hj. lia. }
      exists ps. split; [exact E|]. split; [lia|]. intros j a acc H. pose proof (Hp1 _ _ _ H) as H'. apply Hps in H'. rewrite H'. f_equal. f_equal.
      cbn [lsum]. unfold share at 2. unfold lit_digit. destruct (digits_c _ _ _ !! j) as [d|]; [destruct (0 <? d)|]; lia.
Qed.

(** What a RAM contributes at each of its positions. *)
Definition pieces_of (r : ram) : list (Z * Z) :=
  imap (fun j a => (a, msum (share r j) (r_positions r))) (r_addresses r).
Definition mvol (r : ram) : Z := msum (fun _ v => Z.abs v) (r_positions r).

Lemma ram_mental_spec iter r : good_iter iter -> 2 <= r_base r -> mvol r <= INT_MAX -> ram_mental iter r = Ok (pieces_of r).
Proof.
  intros Hi Hb Hv. unfold ram_mental.
  destruct (mental_loop_spec r Hb (iter (r_positions r)) ((fun a => (a, 0)) <$> r_addresses r)) as (ps & -> & Hl & Hps).
  - apply fmap_length.
  - intros a acc Hin. apply elem_of_list_fmap in Hin as (b & E & _). injection E as -> ->.
    unfold vol. rewrite (lsum_perm _ _ _ (Hi (r_positions r))). change (lsum _ _) with (mvol r). lia.
  - f_equal. apply list_eq. intros j. unfold pieces_of. rewrite list_lookup_imap.
    destruct (r_addresses r !! j) as [a|] eqn:E; cbn.
    + rewrite (Hps j a 0); [|rewrite list_lookup_fmap, E; reflexivity].
      rewrite Z.add_0_l, (lsum_perm _ _ _ (Hi (r_positions r))). reflexivity.
    + apply lookup_ge_None. rewrite Hl, fmap_length. apply lookup_ge_None, E.
Qed.

(** ** Accumulation over the RAMs *)
Definition at_pos (p : Z) (ps : list (Z * Z)) : Z := lsum (fun a v => if a =? p then v else 0) ps.

Lemma lsum_app f l1 l2 : lsum f (l1 ++ l2) = lsum f l1 + lsum f l2.
Proof. induction l1 as [|[a v] l1 IH]; cbn [app lsum]; lia. Qed.
Lemma vol_nonneg ps : 0 <= vol ps.
Proof. unfold vol. induction ps as [|[a v] ps IH]; cbn [lsum]; lia. Qed.

Lemma vadds_spec : forall ps l, Forall (fun q => 0 <= q.1 < len l) ps ->
  (forall v, v ∈ l -> Z.abs v + vol ps <= INT_MAX) ->
  exists l', vadds l ps = Ok l' /\ length l' = length l /\
    forall i v, l !! i = Some v -> l' !! i = Some (v + at_pos (Z.of_nat i) ps).
Proof.
  induction ps as [|[a w] ps IH]; intros l Hr Hb.
  - exists l. repeat split. intros i v H. unfold at_pos. cbn. rewrite Z.add_0_r. exact H.
  - apply Forall_cons in Hr as [Ha Hr]. cbn [fst] in Ha. cbn [vadds]. unfold vadd. cbn [fst snd].
    unfold vol in *. cbn [lsum] in Hb. pose proof (vol_nonneg ps) as Hv. unfold vol in Hv.
    unfold vget. destruct (Z.leb_spec 0 a); [|lia].
    destruct (lookup_lt_is_Some_2 l (Z.to_nat a)) as [old Eo]; [unfold len in Ha; lia|]. rewrite Eo. cbn [rbind].
    specialize (Hb) as Hb'. pose proof (Hb' old ltac:(eapply elem_of_list_lookup_2; exact Eo)) as Hold.
    rewrite int_of_ok by (unfold INT_MIN, INT_MAX in *; lia). cbn [rbind].
    destruct (IH (<[Z.to_nat a := old + w]> l)) as (l' & E & Hl & Hg).
    + unfold len in *. rewrite insert_length. exact Hr.
    + intros v Hin. apply elem_of_list_lookup in Hin as [k Hk]. destruct (decide (k = Z.to_nat a)) as [->|Hne].
      * rewrite list_lookup_insert in Hk by (unfold len in Ha; lia). injection Hk as <-. lia.
      * rewrite list_lookup_insert_ne in Hk by congruence. specialize (Hb v ltac:(eapply elem_of_list_lookup_2; exact Hk)). lia.
    + exists l'. split; [exact E|]. split; [rewrite Hl; apply insert_length|]. intros i v Hi. unfold at_pos in *. cbn [lsum].
      destruct (Z.eqb_spec a (Z.of_nat i)) as [->|Hne].
      * rewrite Nat2Z.id in *. rewrite Eo in Hi. injection Hi as ->.
        rewrite (Hg i (v + w)) by (apply list_lookup_insert; unfold len in Ha; lia). f_equal. lia.
      * rewrite (Hg i v) by (rewrite list_lookup_insert_ne by lia; exact Hi). f_equal.
Qed.

Lemma vadds_app ps1 ps2 l : vadds l (ps1 ++ ps2) = rbind (vadds l ps1) (fun l' => vadds l' ps2).
Proof. revert l. induction ps1 as [|p ps1 IH]; intros l; [reflexivity|]. cbn [app vadds]. destruct (vadd l p); cbn [rbind]; auto. Qed.

Lemma mental_rams_spec iter rs l : Forall (fun r => ram_mental iter r = Ok (pieces_of r)) rs ->
  mental_rams iter rs l = vadds l (List.concat (pieces_of <$> rs)).
Proof.
  intros H. revert l. induction H as [|r rs Hr H IH]; intros l; [reflexivity|]. cbn [mental_rams fmap list_fmap List.concat].
  rewrite Hr, vadds_app. cbn [rbind]. destruct (vadds l _); cbn [rbind]; [apply IH|reflexivity..].
Qed.

Lemma wired_concat d : wired_inside d <-> Forall (fun p => 0 <= p < d_entrySize d) (List.concat (disc_mapping d)).
Proof.
  unfold wired_inside, disc_mapping. induction (d_rams d) as [|r rs IH]; [split; constructor|].
  rewrite fmap_cons. cbn [List.concat]. rewrite Forall_cons, Forall_app, IH. reflexivity.
Qed.

Lemma pieces_fst r : (pieces_of r).*1 = r_addresses r.
Proof. unfold pieces_of. rewrite fmap_imap. apply list_eq. intros j. rewrite list_lookup_imap. destruct (_ !! j); reflexivity. Qed.

Theorem mental_spec iter d : good_iter iter -> 0 <= d_entrySize d -> wired_inside d ->
  Forall (fun r => 2 <= r_base r /\ mvol r <= INT_MAX) (d_rams d) ->
  vol (List.concat (pieces_of <$> d_rams d)) <= INT_MAX ->
  exists l, disc_mental iter d = Ok l /\ len l = d_entrySize d /\
    forall p, 0 <= p < d_entrySize d -> l !! Z.to_nat p = Some (at_pos p (List.concat (pieces_of <$> d_rams d))).
Proof.
  intros Hi He Hw Hr Hv. unfold disc_mental. destruct (Z.ltb_spec (d_entrySize d) 0); [lia|].
  rewrite mental_rams_spec.
  2:{ eapply Forall_impl; [exact Hr|]. intros r [Hb Hm]. apply ram_mental_spec; assumption. }
  destruct (vadds_spec (List.concat (pieces_of <$> d_rams d)) (replicate (Z.to_nat (d_entrySize d)) 0)) as (l & E & Hl & Hg).
  - unfold len. rewrite replicate_length, Z2Nat.id by exact He.
    apply (Forall_fmap fst (fun p => 0 <= p < d_entrySize d)).
    replace (fst <$> List.concat (pieces_of <$> d_rams d)) with (List.concat (disc_mapping d)); [apply wired_concat, Hw|].
    unfold disc_mapping. clear. induction (d_rams d) as [|r rs IH]; [reflexivity|].
    cbn [fmap list_fmap List.concat]. rewrite fmap_app, pieces_fst. f_equal. exact IH.
  - intros v Hin. apply elem_of_replicate in Hin as [-> _]. lia.
  - exists l. split; [exact E|]. split; [unfold len; rewrite Hl, replicate_length; lia|].
    intros p Hp. rewrite (Hg (Z.to_nat p) 0) by (apply lookup_replicate_2; lia). f_equal. rewrite Z2Nat.id by lia. lia.
Qed.
