(** Property theorems C124-C127: what is drawn at random, with the process-wide generator behind
    std::rand() and the places where the package seeds it with the clock (Rand.v). [g] is any
    generator, [now] the value of time(NULL), [st] the state of the generator: any history of the
    process. *)
From Verif Require Import Prelude Bytes Base64 Utils BinInput Ram Json Fs RamData Disc Synth Rand.
From Verif Require Import SpecDisc SpecSaved SpecUtf8 Utf8Proofs.
From Verif Require Import TextProofs CtorFacts BytesProofs DiscCtorProofs JsonNF JsonProofs RandProofs RandSave DiscFacts PropsSynth PropsCtor PropsDisc PropsJson.

(** ** C124: calls of Synthesizer::make() sample afresh *)
Fixpoint makes (g : crand) (clock : list Z) (s : synth) (st : cr_state g) : list (res (list Z)) :=
  match clock with
  | [] => []
  | now :: clock' => let '(r, st') := synth_make_at g now s st in r :: makes g clock' s st'
  end.
(** They do not: any two calls within the same second return the same image, for every generator, every
    synthesizer and whatever the process does. *)
Theorem C124_make_refuted : forall g clock s st i j now, clock !! i = Some now -> clock !! j = Some now ->
  makes g clock s st !! i = makes g clock s st !! j.
Proof.
  intros g clock s st i j now Hi Hj. assert (L : forall clock st i, clock !! i = Some now -> makes g clock s st !! i = Some (fst (synth_make_at g now s st))).
  { clear. induction clock as [|n clock IH]; intros st i H; [discriminate|]. cbn [makes]. destruct i as [|i]; cbn [lookup list_lookup] in H.
    - injection H as ->. destruct (synth_make_at g now s st). reflexivity.
    - destruct (synth_make_at g n s st) as [r st']. change (makes g clock s st' !! i = Some (fst (synth_make_at g now s st))). rewrite (IH st' i H). reflexivity. }
  rewrite (L _ _ _ Hi), (L _ _ _ Hj). reflexivity.
Qed.
Print Assumptions C124_make_refuted.
(** What holds: every call, whatever the clock and the state, returns an image of the law of C77, and
    there are seconds in which it returns each of them (for a suitable generator). *)
Theorem C124_make_partial : forall img mx, Forall (fun v => 0 <= v <= INT_MAX) img -> largest img mx -> 0 < mx ->
  exists s, synth_new img = Ok s /\
    forall g now st, rand_ok g -> exists out k, fst (synth_make_at g now s st) = Ok out /\ 0 <= k < mx /\ Forall2 (lit_by k) img out.
Proof.
  intros img mx H1 H2 H3. destruct (C77_output_law img mx H1 H2 H3) as (s & E & L & _). exists s. split; [exact E|]. intros g now st Hg.
  unfold synth_make_at. specialize (Hg (cr_seed g (u32 now))). destruct (cr_next g (cr_seed g (u32 now))) as [r st']. cbn [fst] in *. exact (L r Hg).
Qed.
Print Assumptions C124_make_partial.
(** A linear congruential generator. *)
Definition lcg : crand := CRand Z (fun s => s) (fun s => let s' := (1103515245 * s + 12345) mod 2147483648 in (s', s')).
Example C124_witness : rand_ok lcg /\ largest [3; 1; 0] 3 /\ (let* s := synth_new [3; 1; 0] in Ok (makes lcg [7; 7; 8; 7] s 5)) = Ok [Ok [1; 1; 0]; Ok [1; 1; 0]; Ok [1; 0; 0]; Ok [1; 1; 0]].
Proof. split; [intros s; cbn [lcg cr_next fst]; unfold INT_MAX; pose proof (Z.mod_pos_bound (1103515245 * s + 12345) 2147483648); lia|]. split; [split; [left|rewrite !Forall_cons, Forall_nil; lia]|vm_compute; reflexivity]. Qed.

(** ** C125: models built one after the other draw different mappings *)
(** Not within one second: a discriminator built with the same arguments gets the same mapping, whatever
    happened to the generator in between, and leaves the generator in the same state. *)
Theorem C125_same_second_refuted : forall g now a e iz ca indexes mapping base st st',
  disc_new_at g now a e iz ca indexes mapping base st = disc_new_at g now a e iz ca indexes mapping base st'.
Proof. intros. unfold disc_new_at, srand_randint, randint_at. cbv iota. reflexivity. Qed.
Print Assumptions C125_same_second_refuted.
(** The same for a Wisard: it seeds once, then each new label draws its mapping. [n] labels. *)
Fixpoint label_draws (g : crand) (n : nat) (a e : Z) (iz ca : bool) (base : Z) (st : cr_state g) : eff (cr_state g) (list disc) :=
  match n with
  | O => (Ok [], st)
  | S n' => ebind (setRAMShuffle_at g e a iz ca base st) (fun d st =>
            ebind (label_draws g n' a e iz ca base st) (fun l st => (Ok (d :: l), st)))
  end.
Theorem C125_same_second_wisard_refuted : forall g now n a e iz ca base st st', rand_ok g ->
  let wisard st := ebind (srand_randint g now 1000000 st) (fun _ st => label_draws g n a e iz ca base st) in wisard st = wisard st'.
Proof. intros g now n a e iz ca base st st2 Hg. cbv beta zeta. rewrite !srand_ok by (try assumption; unfold INT_MAX; lia). reflexivity. Qed.
Print Assumptions C125_same_second_wisard_refuted.
(** What holds: whatever generator, clock and history, the mapping drawn is a proper one (the draw is one
    of those C18 speaks of). *)
Theorem C125_wiring_partial : forall g now a e iz c base st, rand_ok g ->
  2 <= a <= e -> 2 <= base -> e + a <= INT_MAX -> fits base a ->
  exists d, fst (disc_new_at g now a e iz c [] [] base st) = Ok d /\
    d_entrySize d = e /\ d_count d = 0 /\
    len (d_rams d) = e / a + (if c && negb (e mod a =? 0) then 1 else 0) /\
    Forall (fun r => len (r_addresses r) = a /\ Forall (fun p => 0 <= p < e) (r_addresses r) /\
                     r_base r = base /\ r_ignoreZero r = iz /\ r_positions r = ∅) (d_rams d) /\
    (c = true \/ e mod a = 0 -> forall p, 0 <= p < e -> Exists (fun r => p ∈ r_addresses r) (d_rams d)) /\
    (c = false \/ e mod a = 0 -> NoDup (List.concat (r_addresses <$> d_rams d))).
Proof.
  intros g now a e iz c base st Hg Ha Hb He Hf. unfold disc_new_at. rewrite srand_ok by (try assumption; unfold INT_MAX; lia). cbn [ebind length Nat.eqb negb].
  unfold setRAMShuffle_at. cbn [fst]. set (st1 := cr_seed g _).
  exact (C18_default_wiring (draw_of g (extra_indexes e a c) st1) a e iz c base (draw_of_valid g _ _ Hg) Ha Hb He Hf).
Qed.
Print Assumptions C125_wiring_partial.
Example C125_witness : fits 2 2 /\ let map_at now := let* d := fst (disc_new_at lcg now 2 5 false true [] [] 2 3) in Ok (disc_mapping d) in
  (map_at 100, map_at 101) = (Ok [[0; 4]; [2; 3]; [1; 2]], Ok [[0; 4]; [2; 3]; [3; 1]]).
Proof. split; [split; lia|]. vm_compute. reflexivity. Qed.

(** Letters and digits of ASCII. *)
Definition is_letter (c : ascii) : Prop := (97 <= nat_of_ascii c <= 122)%nat \/ (65 <= nat_of_ascii c <= 90)%nat.
Definition is_digit (c : ascii) : Prop := (48 <= nat_of_ascii c <= 57)%nat.
(** ** C126: different models are saved to different files *)
Lemma new_at_constructed g now a e iz ca indexes mapping base st d : rand_ok g -> is_int a -> is_int e -> is_int base ->
  len indexes <= INT_MAX -> Forall (fun m => len m <= INT_MAX) mapping ->
  fst (disc_new_at g now a e iz ca indexes mapping base st) = Ok d -> constructed d.
Proof.
  intros Hg Ha He Hb Hi Hm E. unfold disc_new_at in E. rewrite srand_ok in E by (try assumption; unfold INT_MAX; lia). cbn [ebind] in E.
  set (st1 := cr_seed g _) in E. exists (draw_of g (extra_indexes e a ca) st1), a, e, iz, ca, indexes, mapping, base.
  split; [apply draw_of_valid, Hg|]. repeat (split; [assumption|]). unfold disc_new. destruct (negb (length mapping =? 0)%nat); [exact E|].
  destruct (negb (length indexes =? 0)%nat); exact E.
Qed.
(** Two discriminators built with the same arguments in the same second and saved with json(true, path)
    under the same path get the same file. What the second one saves can then not be loaded again: the
    text of the second loads the RAMs of the first, all but the last one. [st'] is any state the
    generator may have reached in between. *)
Theorem C126_same_file_refuted : forall g iter now a e iz ca indexes mapping base f path st st' d0 h1 h2 d1 d2,
  rand_ok g -> good_iter iter -> is_int a -> is_int e -> is_int base -> len indexes <= INT_MAX -> Forall (fun m => len m <= INT_MAX) mapping ->
  (* the first is built, trained with h1 and saved *)
  fst (disc_new_at g now a e iz ca indexes mapping base st) = Ok d0 ->
  Forall (Forall is_int) (disc_mapping d0) -> all_valid d0 h1 -> len h1 <= INT_MAX -> run d0 h1 = (Ok tt, d1) ->
  (exists x, Train x ∈ h1) -> saved_size d1 <= INT_MAX + 1 ->
  (forall rnd, length rnd = 10%nat -> let name := path ++ rnd ++ lit ".wdpkg" in fs_writable f name = true /\ fs_read f name = None) ->
  is_utf8 path -> len path < INT_MAX ->
  let '((r1, f1), _) := disc_json_at g iter f d1 true path (snd (disc_new_at g now a e iz ca indexes mapping base st)) in
  (* the second is built, trained with h2 and saved *)
  fst (disc_new_at g now a e iz ca indexes mapping base st') = Ok d0 ->
  all_valid d0 h2 -> len h2 <= INT_MAX -> run d0 h2 = (Ok tt, d2) ->
  let '((r2, f2), _) := disc_json_at g iter f1 d2 true path (snd (disc_new_at g now a e iz ca indexes mapping base st')) in
  exists j1 j2 name, r1 = Ok j1 /\ r2 = Ok j2 /\ jfield j1 (lit "data") = Ok (JStr name) /\ jfield j2 (lit "data") = Ok (JStr name) /\
    forall d', disc_of_json f2 j2 = Ok d' ->
      forall im votes votes1, disc_classify d' im = Ok votes -> disc_classify d1 im = Ok votes1 ->
      length votes = length votes1 /\ take (length votes - 1) votes = take (length votes1 - 1) votes1.
Proof.
  intros g iter now a e iz ca indexes mapping base f path st st' d0 h1 h2 d1 d2 Hg Hi Ha He Hb Hli Hlm E0 Hm Hv1 Hl1 E1 Hx Hs Hf Hu Hlp.
  rewrite (C125_same_second_refuted g now a e iz ca indexes mapping base st' st). set (s0 := snd _). unfold disc_json_at.
  pose proof (string_chars g Hg 10 s0) as [Hrl Hrc]. destruct (random_string g 10 s0) as [rnd s1]. cbn [fst] in Hrl, Hrc.
  destruct (disc_json iter rnd f d1 true path) as [r1 f1] eqn:Ej1. intros _ Hv2 Hl2 E2. destruct (disc_json iter rnd f1 d2 true path) as [r2 f2] eqn:Ej2.
  destruct (Hf rnd Hrl) as [Hw Hrd].
  assert (Hc : constructed d0) by exact (new_at_constructed g now a e iz ca indexes mapping base st d0 Hg Ha He Hb Hli Hlm E0).
  destruct (two_saves iter rnd f path d0 h1 h2 d1 d2 Hi Hc Hm Hv1 Hl1 E1 Hx Hs Hv2 Hl2 E2) as (j1 & f1' & j2 & f2' & X1 & X2 & X3 & X4 & X5).
  - apply utf8_ok_app; [apply utf8_ok_iff in Hu; unfold utf8_ok in Hu; lia|]. apply utf8_ascii. apply Forall_app_2; [|vm_compute; repeat constructor].
    eapply Forall_impl; [exact Hrc|]. intros c [Hin _]. clear -Hin. revert c Hin. apply Forall_forall. vm_compute. repeat constructor.
  - rewrite !len_app. unfold len at 2 3. rewrite Hrl. cbn [lit length]. change (Z.of_nat (length (lit ".wdpkg"))) with 6. unfold W64, INT_MAX in *. lia.
  - exact Hw.
  - exact Hrd.
  - rewrite Ej1 in X1. injection X1 as -> <-. rewrite Ej2 in X2. injection X2 as -> <-.
    exists j1, j2, (path ++ rnd ++ lit ".wdpkg"). split; [reflexivity|]. split; [reflexivity|]. split; [exact X3|]. split; [exact X4|].
    intros d' Ed im votes votes1 V V1. destruct (X5 d' Ed) as (A & B & r & r' & rs & R1 & R').
    pose proof (shared_votes d1 d' im votes votes1 r r' rs A R1 R' V V1) as T.
    assert (Lv : forall d v, disc_classify d im = Ok v -> length v = length (d_rams d)).
    { intros d v H. unfold disc_classify in H. destruct (checkEntrySize _ _); try discriminate. cbn [rbind] in H. apply rmapM_ok in H. symmetry. exact (Forall2_length _ _ _ H). }
    rewrite (Lv _ _ V), (Lv _ _ V1), R1, R'. rewrite !app_length. cbn [length]. rewrite !Nat.add_sub. split; [reflexivity|exact T].
Qed.
Print Assumptions C126_same_file_refuted.
Definition imgB := vec_image [1; 1; 0; 0; 2].
(** A concrete loss: 3 RAM inputs and 2 RAM inputs over 5 pixels; the first learns img1, the second imgB.
    Reloaded, the second knows img1 and not imgB in its first RAM. *)
Example C126_witness : let map := [[0; 2; 4]; [1; 3]] in
  let '(o1, s1) := disc_new_at lcg 1700000000 2 5 true true [] map 3 12345 in
  let '(o2, s2) := disc_new_at lcg 1700000000 2 5 true true [] map 3 s1 in
  o1 = Ok demo /\ o2 = Ok demo /\
  let d1 := snd (disc_train demo img1) in let d2 := snd (disc_train demo imgB) in
  let '((r1, f1), _) := disc_json_at lcg it0 disk d1 true (lit "dir/") s1 in
  let '((r2, f2), _) := disc_json_at lcg it0 f1 d2 true (lit "dir/") s2 in
  (let* j := r1 in jfield j (lit "data")) = Ok (JStr (lit "dir/AQfxFLKuRa.wdpkg")) /\
  (let* j := r2 in jfield j (lit "data")) = Ok (JStr (lit "dir/AQfxFLKuRa.wdpkg")) /\
  disc_classify d2 imgB = Ok [1; 1] /\ disc_classify d2 img1 = Ok [0; 0] /\
  (let* j := r2 in let* d := disc_of_json f2 j in disc_classify d imgB) = Ok [0; 0] /\
  (let* j := r2 in let* d := disc_of_json f2 j in disc_classify d img1) = Ok [1; 1].
Proof. vm_compute. repeat split. Qed.
(** What holds: the name is the path, ten letters or digits (never the digit 9) and the suffix; C61 and
    C87 give the round trip for names that are not taken. *)
Theorem C126_name_partial : forall g iter f d path st, rand_ok g -> is_utf8 path ->
  exists j f' st' rnd, disc_json_at g iter f d true path st = ((Ok j, f'), st') /\
    jfield j (lit "data") = Ok (JStr (path ++ rnd ++ lit ".wdpkg")) /\ length rnd = 10%nat /\
    Forall (fun c => (is_letter c \/ is_digit c) /\ c <> "9"%char) rnd.
Proof.
  intros g iter f d path st Hg Hu. unfold disc_json_at. destruct (string_chars g Hg 10 st) as [Hrl Hrc]. destruct (random_string g 10 st) as [rnd st'] eqn:Er. cbn [fst] in *.
  rewrite disc_json_nf; unfold getRAMsData; cbn [fst snd].
  - eexists _, _, _, rnd. split; [reflexivity|]. split; [unfold json_value; destruct (d_rams d); reflexivity|]. split; [exact Hrl|].
    eapply Forall_impl; [exact Hrc|]. intros c [Hin H9]. split; [|exact H9]. clear -Hin. revert c Hin. apply Forall_forall.
    assert (A : forallb (fun c => let n := nat_of_ascii c in ((97 <=? n) && (n <=? 122) || (65 <=? n) && (n <=? 90) || (48 <=? n) && (n <=? 57))%nat) alphanum = true) by (vm_compute; reflexivity).
    apply Forall_forall. intros c Hc. rewrite forallb_forall in A. apply elem_of_list_In in Hc. specialize (A c Hc). cbv zeta in A.
    unfold is_letter, is_digit. apply orb_true_iff in A as [A|A]; [left; apply orb_true_iff in A as [A|A]; [left|right]|right]; apply andb_true_iff in A as [A B]; apply Nat.leb_le in A, B; lia.
  - apply utf8_ok_app; [apply utf8_ok_iff in Hu; unfold utf8_ok in Hu; lia|]. apply utf8_ascii. apply Forall_app_2; [|vm_compute; repeat constructor].
    eapply Forall_impl; [exact Hrc|]. intros c [Hin _]. clear -Hin. revert c Hin. apply Forall_forall. vm_compute. repeat constructor.
Qed.
Print Assumptions C126_name_partial.

(** ** C127: a RAM built with RAM(addressSize, entrySize) watches random pixels *)
(** Within one second all its inputs are the same pixel, for every generator. *)
Theorem C127_one_pixel_refuted : forall g now a e iz base st r st',
  ram_random_at g (fun _ => now) a e iz base st = (Ok r, st') -> exists p, r_addresses r = repeat p (Z.to_nat a).
Proof. exact one_pixel. Qed.
Print Assumptions C127_one_pixel_refuted.
(** What holds, whatever the clock does: [a] inputs in range; for an empty image the remainder by zero. *)
Theorem C127_random_ram_partial : forall g now a e iz base st, rand_ok g -> 0 <= a -> checkLimitAddressSize a base = Ok tt ->
  (1 <= e <= INT_MAX -> exists r, fst (ram_random_at g now a e iz base st) = Ok r /\
     len (r_addresses r) = a /\ Forall (fun p => 0 <= p < e) (r_addresses r) /\ r_positions r = ∅ /\ r_ignoreZero r = iz /\ r_base r = base) /\
  (e = 0 -> 0 < a -> fst (ram_random_at g now a e iz base st) = UB UBDivZero).
Proof. exact random_ram. Qed.
Print Assumptions C127_random_ram_partial.
Example C127_witness :
  (let* r := fst (ram_random_at lcg (fun _ => 77) 4 10 false 2 5) in Ok (r_addresses r)) = Ok [8; 8; 8; 8] /\
  (let* r := fst (ram_random_at lcg (fun i => Z.of_nat i) 4 10 false 2 5) in Ok (r_addresses r)) = Ok [5; 0; 7; 2].
Proof. split; vm_compute; reflexivity. Qed.
