(** Property theorem C42_ties: who wins a tie, in terms of the bytes of the labels. Vocabulary in SpecOrder.v. *)
From Verif Require Import Prelude Bytes Bleaching SpecOrder BleachProofs PropsBleach.

Lemma byte_nat c : byte c = Z.of_nat (nat_of_ascii c).
Proof. unfold byte, nat_of_ascii. rewrite N_nat_Z. reflexivity. Qed.
Lemma byte_same x y : byte x = byte y -> x = y.
Proof.
  rewrite !byte_nat. intros H. rewrite <- (ascii_nat_embedding x), <- (ascii_nat_embedding y). f_equal. lia.
Qed.
Lemma str_le_before : forall a b : str, str_le a b <-> a = b \/ comes_before a b.
Proof.
  unfold str_le. induction a as [|x a IH]; intros [|y b].
  - split; [left; reflexivity|reflexivity].
  - split; [intros _; right; left; exists (y :: b); split; [discriminate|reflexivity]|reflexivity].
  - split; [discriminate|]. intros [H|[(r & _ & H)|(p & u & v & r & r' & _ & H & _)]]; [discriminate|discriminate|destruct p; discriminate].
  - cbn [str_leb]. destruct (Z.ltb_spec (byte x) (byte y)) as [Hl|Hl].
    + split; [intros _|reflexivity]. right; right. exists [], x, y, a, b. repeat split. rewrite !byte_nat in Hl. lia.
    + destruct (Z.eqb_spec (byte x) (byte y)) as [He|He].
      * apply byte_same in He as ->. rewrite IH. split.
        -- intros [-> |[(r & Hr & ->)|(p & u & v & r & r' & -> & -> & H)]]; [left; reflexivity|right; left; exists r; split; [exact Hr|reflexivity]|].
           right; right. exists (y :: p), u, v, r, r'. repeat split. exact H.
        -- intros [H|[(r & Hr & H)|(p & u & v & r & r' & Ha & Hb & H)]].
           ++ injection H as ->. left; reflexivity.
           ++ injection H as ->. right; left. exists r. split; [exact Hr|reflexivity].
           ++ destruct p as [|z p]; cbn [app] in Ha, Hb.
              ** injection Ha as -> ->. injection Hb as -> ->. lia.
              ** injection Ha as -> ->. injection Hb as ->. right; right. exists p, u, v, r, r'. auto.
      * split; [discriminate|]. intros [H|[(r & Hr & H)|(p & u & v & r & r' & Ha & Hb & H)]]; [injection H as -> ->; lia|injection H as -> ->; lia|].
        destruct p as [|z p]; cbn [app] in Ha, Hb; [injection Ha as -> ->; injection Hb as -> ->; rewrite !byte_nat in Hl; lia|injection Ha as -> ->; injection Hb as -> ->; lia].
Qed.

(** The returned class has the highest count, and every other label with that count comes before it. *)
Theorem C42_ties : forall m, (forall k v, m !! k = Some v -> 0 <= v) -> m <> ∅ ->
  exists v, m !! getBiggestCandidate m = Some v /\ forall k' v', m !! k' = Some v' -> k' <> getBiggestCandidate m ->
    v' < v \/ (v' = v /\ comes_before k' (getBiggestCandidate m)).
Proof.
  intros m Hm Hne. destruct (C42_winner m Hm) as [H _]. destruct (H Hne) as (v & Hv & Hmax). exists v. split; [exact Hv|]. intros k' v' Hk' Hd.
  destruct (Hmax k' v' Hk') as [Hl|[He Hl]]; [left; exact Hl|]. right. split; [exact He|]. apply str_le_before in Hl as [Hl|Hl]; [contradiction|exact Hl].
Qed.
Print Assumptions C42_ties.
(** Not vacuous: "hot" and a label that starts with the byte 233 tie at 3; 233 counts as more than 104. *)
Example C42_ties_witness : let m := <[lit "cold" := 2]> (<[lit "hot" := 3]> {[ [ascii_of_nat 233] := 3 ]}) in
  (forall k v, m !! k = Some v -> 0 <= v) /\ m <> ∅ /\ getBiggestCandidate m = [ascii_of_nat 233] /\ comes_before (lit "hot") [ascii_of_nat 233].
Proof.
  cbv zeta. split; [intros k v H; apply lookup_insert_Some in H as [[_ <-]|[_ H]]; [lia|]; apply lookup_insert_Some in H as [[_ <-]|[_ H]]; [lia|]; apply lookup_singleton_Some in H as [_ <-]; lia|].
  split; [apply insert_non_empty|]. split; [vm_compute; reflexivity|]. right. exists [], "h"%char, (ascii_of_nat 233), (lit "ot"), []. repeat split. vm_compute. lia.
Qed.
