(** C63, continued: what reloading gives when the file named by json(true,path) already exists. *)
From Verif Require Import Prelude Bytes Base64 Utils BinInput Ram Json Fs RamData Disc SpecDisc SpecSaved SpecUtf8.
From Verif Require Import DiscCtorProofs CtorFacts RamDataProofs JsonProofs RamProofs DiscProofs DiscFacts JsonFacts Utf8Proofs SaveOver PropsDisc.

Lemma over_form (iz : bool) (base : Z) (d2 : disc) (ms : list (gmap Z Z)) : Forall (storable_ram iz base) (d_rams d2) ->
  forall n, n = length (d_rams d2) ->
  let rs := zip_with (fun r m => Ram (r_addresses r) m iz base) (d_rams d2) ms in
  (r_positions <$> rs = take n ms) /\ (r_addresses <$> rs = take (length ms) (r_addresses <$> d_rams d2)) /\
  (forall r, r ∈ rs -> exists r2, r2 ∈ d_rams d2 /\ r_addresses r = r_addresses r2 /\ r_ignoreZero r = r_ignoreZero r2 /\ r_base r = r_base r2).
Proof.
  intros Hall n ->. cbv zeta. revert ms. induction Hall as [|r rs Hr Hall IH]; intros ms.
  - cbn. rewrite take_nil. split; [reflexivity|]. split; [reflexivity|]. intros r Hin. inversion Hin.
  - destruct ms as [|m ms]; cbn [zip_with length take fmap list_fmap]; [split; [reflexivity|]; split; [reflexivity|]; intros x Hin; inversion Hin|].
    destruct (IH ms) as (I1 & I2 & I3). split; [f_equal; exact I1|]. split; [f_equal; exact I2|]. intros x Hin. apply elem_of_cons in Hin as [->|Hin].
    + exists r. split; [left|]. destruct Hr as (Hz & Hb & _). cbn. auto.
    + destruct (I3 x Hin) as (r2 & H2 & H3). exists r2. split; [right; exact H2|exact H3].
Qed.

(** A second discriminator saved to the same file is appended without a separator. Reloading it gives
    its entry size, counter and wiring, but the contents of the first discriminator's RAMs up to its
    last, then that one's merged with those of the second's first RAM (which win), then the second's
    from its second RAM on, as many as the second has. [xs], [a]: contents of the first
    discriminator's RAMs; [b], [ys]: of the second's. *)
Theorem C63_existing_file_partial : forall iter rnd f path d01 h1 d1 d02 h2 d2 xs a b ys,
  good_iter iter ->
  constructed d01 -> Forall (Forall is_int) (disc_mapping d01) -> all_valid d01 h1 -> len h1 <= INT_MAX -> run d01 h1 = (Ok tt, d1) -> (exists x, Train x ∈ h1) ->
  constructed d02 -> Forall (Forall is_int) (disc_mapping d02) -> all_valid d02 h2 -> len h2 <= INT_MAX -> run d02 h2 = (Ok tt, d2) -> (exists x, Train x ∈ h2) ->
  saved_size d1 + saved_size d2 <= INT_MAX ->
  r_positions <$> d_rams d1 = xs ++ [a] -> r_positions <$> d_rams d2 = b :: ys ->
  let name := path ++ rnd ++ lit ".wdpkg" in
  is_utf8 name -> len name < W64 -> fs_writable f name = true -> fs_read f name = None ->
  exists j1 f1 j2 f2 d', disc_json iter rnd f d1 true path = (Ok j1, f1) /\ disc_json iter rnd f1 d2 true path = (Ok j2, f2) /\
    disc_of_json f2 j2 = Ok d' /\ d_entrySize d' = d_entrySize d2 /\ d_count d' = d_count d2 /\ disc_mapping d' = disc_mapping d2 /\
    r_positions <$> d_rams d' = take (length (d_rams d2)) (xs ++ (b ∪ a) :: ys).
Proof.
  intros iter rnd f path d01 h1 d1 d02 h2 d2 xs a b ys Hi C1 M1 V1 L1 R1 T1 C2 M2 V2 L2 R2 T2 Hsz P1 P2 name Hun Hn Hw Hr.
  pose proof (run_inv d01 h1 d1 C1 V1 L1 R1) as A1. pose proof (run_inv d02 h2 d2 C2 V2 L2 R2) as A2.
  destruct (constructed_uniform d01 C1) as (iz1 & base1 & U1). destruct (constructed_uniform d02 C2) as (iz & base & U2).
  assert (Z : forall d, 0 <= saved_size d).
  { intros d. unfold saved_size. induction (d_rams d) as [|r rs IH]; [reflexivity|]. rewrite fmap_cons. cbn [zsum foldr] in *. unfold zsum in IH. lia. }
  pose proof (Z d1). pose proof (Z d2).
  destruct (after_storable iter iz1 base1 d01 h1 d1 Hi (constructed_fresh _ C1) U1 M1 V1 L1 A1 T1 ltac:(lia)) as [St1 Sr1].
  destruct (after_storable iter iz base d02 h2 d2 Hi (constructed_fresh _ C2) U2 M2 V2 L2 A2 T2 ltac:(lia)) as [St2 Sr2].
  apply utf8_ok_iff in Hun.
  destruct (saved_over iter rnd f path iz1 base1 iz base d1 d2 xs a b ys Hi St1 Sr1 St2 Sr2 Hsz P1 P2 Hun Hn Hw Hr) as (j1 & f1 & j2 & f2 & E1 & E2 & E3).
  destruct (over_form iz base d2 (xs ++ (b ∪ a) :: ys) Sr2 _ eq_refl) as (O1 & O2 & O3).
  eexists j1, f1, j2, f2, _. split; [exact E1|]. split; [exact E2|]. split; [exact E3|]. split; [reflexivity|]. split; [reflexivity|]. split; [|exact O1].
  unfold disc_mapping. cbn [d_rams]. rewrite O2. apply take_ge. rewrite fmap_length, app_length. cbn [length].
  rewrite <- (fmap_length r_positions), P2. cbn [length]. lia.
Qed.
Print Assumptions C63_existing_file_partial.

(** If the file exists and can no longer be written, json(true,path) still returns normally, and
    reloading gives the wiring of the second discriminator with the contents of the first; RAMs
    beyond those of the first are missing. *)
Theorem C63_read_only_partial : forall iter rnd f path d01 h1 d1 d02 h2 d2,
  good_iter iter ->
  constructed d01 -> Forall (Forall is_int) (disc_mapping d01) -> all_valid d01 h1 -> len h1 <= INT_MAX -> run d01 h1 = (Ok tt, d1) -> (exists x, Train x ∈ h1) -> saved_size d1 <= INT_MAX + 1 ->
  constructed d02 -> Forall (Forall is_int) (disc_mapping d02) -> all_valid d02 h2 -> len h2 <= INT_MAX -> run d02 h2 = (Ok tt, d2) -> (exists x, Train x ∈ h2) -> saved_size d2 <= INT_MAX + 1 ->
  let name := path ++ rnd ++ lit ".wdpkg" in
  is_utf8 name -> len name < W64 -> fs_writable f name = true -> fs_read f name = None ->
  exists j1 f1, disc_json iter rnd f d1 true path = (Ok j1, f1) /\
    forall locked, fs_files locked = fs_files f1 -> fs_writable locked name = false ->
    exists j2 d', disc_json iter rnd locked d2 true path = (Ok j2, locked) /\
      disc_of_json locked j2 = Ok d' /\ d_entrySize d' = d_entrySize d2 /\ d_count d' = d_count d2 /\
      disc_mapping d' = take (length (d_rams d1)) (disc_mapping d2) /\
      r_positions <$> d_rams d' = take (length (d_rams d2)) (r_positions <$> d_rams d1).
Proof.
  intros iter rnd f path d01 h1 d1 d02 h2 d2 Hi C1 M1 V1 L1 R1 T1 Z1 C2 M2 V2 L2 R2 T2 Z2 name Hun Hn Hw Hr.
  pose proof (run_inv d01 h1 d1 C1 V1 L1 R1) as A1. pose proof (run_inv d02 h2 d2 C2 V2 L2 R2) as A2.
  destruct (constructed_uniform d01 C1) as (iz1 & base1 & U1). destruct (constructed_uniform d02 C2) as (iz & base & U2).
  destruct (after_storable iter iz1 base1 d01 h1 d1 Hi (constructed_fresh _ C1) U1 M1 V1 L1 A1 T1 Z1) as [St1 Sr1].
  destruct (after_storable iter iz base d02 h2 d2 Hi (constructed_fresh _ C2) U2 M2 V2 L2 A2 T2 Z2) as [St2 Sr2].
  apply utf8_ok_iff in Hun.
  destruct (saved_under iter rnd f path iz1 base1 iz base d1 d2 Hi St1 Sr1 St2 Sr2 Hun Hn Hw Hr) as (j1 & f1 & j2 & E1 & E2).
  destruct (over_form iz base d2 (r_positions <$> d_rams d1) Sr2 _ eq_refl) as (O1 & O2 & _).
  exists j1, f1. split; [exact E1|]. intros locked Hf Hlock. destruct (E2 locked Hf Hlock) as (E3 & E4).
  eexists j2, _. split; [exact E3|]. split; [exact E4|]. split; [reflexivity|]. split; [reflexivity|]. split; [|exact O1].
  unfold disc_mapping. cbn [d_rams]. rewrite O2, fmap_length. reflexivity.
Qed.
Print Assumptions C63_read_only_partial.

(** Two discriminators of different shape: three RAMs in the file, two and then four to be saved. *)
Example C63_over_witness :
  let it0 : iteration := fun m => map_to_list m in
  let disk := Fs ∅ (fun _ => true) in
  let im := vec_image [1; 0; 1; 1; 0; 1] in let im2 := vec_image [0; 0; 1; 1; 1; 1] in
  let build m := disc_new some_draw 2 6 false true [] m 2 in
  exists a0 b0 c0 a b c ja ra d' dl,
    build [[0; 1]; [2; 3]; [4; 5]] = Ok a0 /\ build [[5; 4; 3]; [2; 1; 0]] = Ok b0 /\ build [[0]; [1]; [2]; [3; 4; 5]] = Ok c0 /\
    disc_train a0 im = (Ok tt, a) /\ disc_train b0 im2 = (Ok tt, b) /\ disc_train c0 im2 = (Ok tt, c) /\
    saved_size a + saved_size b <= INT_MAX /\
    disc_json it0 (lit "x") disk a true [] = (ja, ra) /\
    (let* j := fst (disc_json it0 (lit "x") ra b true []) in disc_of_json (snd (disc_json it0 (lit "x") ra b true [])) j) = Ok d' /\
    r_positions <$> d_rams d' = take 2 (r_positions <$> d_rams a) /\
    (let locked := Fs (fs_files ra) (fun _ => false) in
     (let* j := fst (disc_json it0 (lit "x") locked c true []) in disc_of_json locked j) = Ok dl /\
     r_positions <$> d_rams dl = r_positions <$> d_rams a /\ disc_mapping dl = [[0]; [1]; [2]]).
Proof.
  cbv zeta. do 10 eexists. split; [vm_compute; reflexivity|]. split; [vm_compute; reflexivity|]. split; [vm_compute; reflexivity|].
  split; [vm_compute; reflexivity|]. split; [vm_compute; reflexivity|]. split; [vm_compute; reflexivity|]. split; [vm_compute; congruence|].
  split; [vm_compute; reflexivity|]. split; [vm_compute; reflexivity|]. split; [vm_compute; reflexivity|]. split; [vm_compute; reflexivity|]. split; vm_compute; reflexivity.
Qed.
