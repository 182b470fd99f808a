(** C37: the mental image of a discriminator whose RAMs have any number of inputs. *)
From Verif Require Import Prelude Bytes Utils BinInput Ram Disc SpecDisc SpecMental.
From Verif Require Import BytesProofs UtilsProofs TextProofs DiscCtorProofs CtorFacts RamProofs DiscProofs DiscFacts MentalProofs MentalHistory MentalWide.

(** The exact mental image, for every accepted address size and base: an image is counted at an
    input exactly if that digit of the RAM's address, cut to a signed 32-bit number, is positive. *)
Theorem C37_mental_exact_partial : forall iter d0 xs,
  good_iter iter -> constructed d0 -> 0 <= d_entrySize d0 -> wired_inside d0 ->
  Forall (valid_image d0) xs -> len xs <= INT_MAX -> len xs * total_inputs d0 <= INT_MAX ->
  exists d l, disc_train_all d0 xs = (Ok tt, d) /\ disc_mental iter d = Ok l /\ len l = d_entrySize d0 /\
    forall p, 0 <= p < d_entrySize d0 -> l !! Z.to_nat p = Some (wide_law d0 xs p).
Proof.
  intros iter d0 xs Hi Hc He Hw Hv Hl Hb. pose proof (constructed_fresh d0 Hc) as Hf.
  destruct (run_after d0 (Train <$> xs) Hf (valid_train _ _ Hv)) as (d & E & Ha); [rewrite len_fmap; exact Hl|].
  destruct (mental_after iter d0 (Train <$> xs) d Hi Hf He Hw (valid_train _ _ Hv)) as (l & El & Hll & Hg & _); [rewrite len_fmap; assumption..|exact Ha|].
  exists d, l. rewrite train_all_run. split; [exact E|]. split; [exact El|]. split; [exact Hll|]. intros p Hp. rewrite (Hg p Hp). f_equal.
  apply wide_pieces; assumption.
Qed.
Print Assumptions C37_mental_exact_partial.

(** In base 2: inputs from the 32nd on show nothing, and an image whose 32nd pixel is on shows
    nothing at all in that RAM. *)
Theorem C37_mental_binary_partial : forall iter d0 xs,
  good_iter iter -> constructed d0 -> 0 <= d_entrySize d0 -> wired_inside d0 -> Forall (fun r => r_base r = 2) (d_rams d0) ->
  Forall (valid_image d0) xs -> len xs <= INT_MAX -> len xs * total_inputs d0 <= INT_MAX ->
  exists d l, disc_train_all d0 xs = (Ok tt, d) /\ disc_mental iter d = Ok l /\ len l = d_entrySize d0 /\
    forall p, 0 <= p < d_entrySize d0 -> l !! Z.to_nat p = Some (binary_law d0 xs p).
Proof.
  intros iter d0 xs Hi Hc He Hw H2 Hv Hl Hb. destruct (C37_mental_exact_partial iter d0 xs Hi Hc He Hw Hv Hl Hb) as (d & l & E & El & Hll & Hg).
  exists d, l. split; [exact E|]. split; [exact El|]. split; [exact Hll|]. intros p Hp. rewrite (Hg p Hp). f_equal. unfold wide_law, binary_law. f_equal.
  apply list_fmap_ext. intros k r Hr. cbv beta. f_equal. apply imap_ext. intros j a Hj. destruct (a =? p); [|reflexivity].
  apply count_if_ext. intros x Hx. apply elem_of_list_lookup_2 in Hr.
  destruct (proj1 (Forall_forall _ _) Hv x Hx) as (_ & Hvx). exact (shown_binary r j x a (proj1 (Forall_forall _ _) H2 r Hr) (proj1 (Forall_forall _ _) Hvx r Hr) Hj).
Qed.
Print Assumptions C37_mental_binary_partial.
Definition wide_img (on : list Z) : image := vec_image ((fun i => if bool_decide (Z.of_nat i ∈ on) then 1 else 0) <$> seq 0 33).
Example C37_exact_witness : exists d0, disc_new some_draw 33 33 false true [] [Z.of_nat <$> seq 0 33] 2 = Ok d0 /\ constructed d0 /\ wired_inside d0 /\ Forall (fun r => r_base r = 2) (d_rams d0) /\
  Forall (valid_image d0) [wide_img [0; 5; 32]; wide_img [0; 7; 31]] /\
  (fun p => binary_law d0 [wide_img [0; 5; 32]; wide_img [0; 7; 31]] p) <$> [0; 5; 7; 31; 32] = [1; 1; 0; 0; 0] /\
  (fun p => wires d0 p * active p [wide_img [0; 5; 32]; wide_img [0; 7; 31]]) <$> [0; 5; 7; 31; 32] = [2; 1; 1; 1; 1].
Proof.
  set (row := Z.of_nat <$> seq 0 33). assert (Hrow : Forall (fun p => 0 <= p < 33) row).
  { apply Forall_forall. intros p Hp. apply elem_of_list_fmap in Hp as (n & -> & Hn). apply elem_of_seq in Hn. lia. }
  exists (Disc 33 0 [Ram row ∅ false 2]). assert (E : disc_new some_draw 33 33 false true [] [row] 2 = Ok (Disc 33 0 [Ram row ∅ false 2])) by (vm_compute; reflexivity).
  split; [exact E|]. split.
  { exists some_draw, 33, 33, false, true, [], [row], 2. split; [exact some_draw_valid|]. unfold is_int, INT_MIN, INT_MAX. split; [lia|]. split; [lia|]. split; [lia|].
    split; [vm_compute; congruence|]. split; [|exact E]. constructor; [vm_compute; congruence|constructor]. }
  split; [constructor; [exact Hrow|constructor]|]. split; [constructor; [reflexivity|constructor]|]. split.
  - assert (Hv : forall on, valid_image (Disc 33 0 [Ram row ∅ false 2]) (wide_img on)).
    { intros on. split; [reflexivity|]. constructor; [|constructor]. cbn [r_addresses r_base]. eapply Forall_impl; [exact Hrow|]. intros p Hp. cbv beta in Hp.
      exists (if bool_decide (p ∈ on) then 1 else 0). split; [|destruct (bool_decide _); lia].
      unfold wide_img, vec_image. cbn [im_get]. unfold vget. destruct (Z.leb_spec 0 p); [|lia]. rewrite list_lookup_fmap, lookup_seq_lt by lia. cbn [fmap option_fmap option_map Nat.add].
      rewrite Z2Nat.id by lia. reflexivity. }
    constructor; [apply Hv|constructor; [apply Hv|constructor]].
  - split; vm_compute; reflexivity.
Qed.
