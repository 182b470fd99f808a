(** Property theorem C143: which random wirings can be drawn. *)
From Verif Require Import Prelude Bytes Utils BinInput Ram Json Fs RamData Disc Synth Rand SpecDisc SpecWiring.
From Verif Require Import DiscCtorProofs CtorFacts RandProofs Wiring PropsCtor PropsRand.

(** C143: false. Discriminators are seeded with one of 100001 values, so at most 100001 wirings can be
    drawn for given arguments, whatever the C library, the clock and the history; images of 9 or more
    pixels have more (9! = 362880). *)
Theorem C143_few_refuted : forall g a e iz c base, rand_ok g ->
  exists L, len L = 100001 /\ forall now st d, fst (disc_new_at g now a e iz c [] [] base st) = Ok d -> disc_mapping d ∈ L.
Proof.
  intros g a e iz c base Hg.
  destruct (few g 100000 (fun st => match fst (setRAMShuffle_at g e a iz c base st) with Ok d => disc_mapping d | _ => [] end) Hg) as (L & HL & H); [unfold INT_MAX; lia|].
  exists L. split; [exact HL|]. intros now st d E. destruct (H now st) as (st1 & Es & Hi). unfold disc_new_at in E. rewrite Es in E. cbn [ebind length Nat.eqb negb] in E. rewrite E in Hi. exact Hi.
Qed.
Print Assumptions C143_few_refuted.
Theorem C143_never_drawn_refuted : forall g a e iz c base, rand_ok g -> 2 <= a -> 9 <= e -> e mod a = 0 ->
  exists m, proper_wiring a e m /\ forall now st d, fst (disc_new_at g now a e iz c [] [] base st) = Ok d -> disc_mapping d <> m.
Proof.
  intros g a e iz c base Hg Ha He Hm. destruct (C143_few_refuted g a e iz c base Hg) as (L & HL & H).
  destruct (pigeon L (all_wirings a e)) as (m & Hin & Hout); [apply all_wirings_nodup; lia| |].
  - rewrite HL, all_wirings_len. pose proof (zfact_mono 9 (Z.to_nat e) ltac:(lia)) as M. change (zfact 9) with 362880 in M. lia.
  - exists m. split; [apply all_wirings_proper; try assumption; lia|]. intros now st d E Em. apply Hout. rewrite <- Em. exact (H now st d E).
Qed.
Print Assumptions C143_never_drawn_refuted.
(** The same for each label of a Wisard, which is seeded with one of 1000001 values (10! = 3628800). *)
Theorem C143_wisard_never_drawn_refuted : forall g n i a e iz c base, rand_ok g -> 2 <= a -> 10 <= e -> e mod a = 0 ->
  exists m, proper_wiring a e m /\ forall now st l d,
    fst (ebind (srand_randint g now 1000000 st) (fun _ st => label_draws g n a e iz c base st)) = Ok l ->
    l !! i = Some d -> disc_mapping d <> m.
Proof.
  intros g n i a e iz c base Hg Ha He Hm.
  destruct (few g 1000000 (fun st => match fst (label_draws g n a e iz c base st) with Ok l => match l !! i with Some d => disc_mapping d | None => [] end | _ => [] end) Hg) as (L & HL & H); [unfold INT_MAX; lia|].
  destruct (pigeon L (all_wirings a e)) as (m & Hin & Hout); [apply all_wirings_nodup; lia| |].
  - rewrite HL, all_wirings_len. pose proof (zfact_mono 10 (Z.to_nat e) ltac:(lia)) as M. change (zfact 10) with 3628800 in M. lia.
  - exists m. split; [apply all_wirings_proper; try assumption; lia|]. intros now st l d E Ed Em. apply Hout. destruct (H now st) as (st1 & Es & Hi). rewrite Es in E. cbn [ebind] in E. rewrite E, Ed, Em in Hi. exact Hi.
Qed.
Print Assumptions C143_wisard_never_drawn_refuted.
Example C143_witness : rand_ok lcg /\ 9 mod 3 = 0 /\ proper_wiring 3 9 [[0; 1; 2]; [3; 4; 5]; [6; 7; 8]] /\
  (let* d := fst (disc_new_at lcg 100 3 9 false true [] [] 2 5) in Ok (disc_mapping d)) = Ok [[5; 8; 7]; [2; 1; 4]; [6; 3; 0]] /\ fits 2 3.
Proof.
  split; [exact (proj1 C124_witness)|]. split; [reflexivity|]. split.
  - split; [reflexivity|]. split; [repeat constructor|]. split; [cbn [List.concat app]; repeat (constructor; [rewrite ?elem_of_cons, elem_of_nil; lia|]); constructor|cbn [List.concat app]; repeat constructor; lia].
  - split; [vm_compute; reflexivity|split; lia].
Qed.

(** What holds: it is only the seeding that limits the choice. The shuffle itself leaves no wiring out:
    for each there are values of rand() that draw it. *)
Theorem C143_drawable_partial : forall a e iz c base m, 2 <= a <= e -> 2 <= base -> e + a <= INT_MAX -> fits base a ->
  c = false \/ e mod a = 0 -> proper_wiring a e m ->
  exists g, rand_ok g /\ forall now st, exists d, fst (disc_new_at g now a e iz c [] [] base st) = Ok d /\ disc_mapping d = m.
Proof. exact drawable. Qed.
Print Assumptions C143_drawable_partial.
