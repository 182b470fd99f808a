(** Property theorems C116, C117: files of which only the first [k] bytes were written because the
    disk filled up or the process was killed. Vocabulary in SpecCrash.v. *)
From Verif Require Import Prelude Bytes Base64 BinInput Ram Json Fs RamData Disc DataSet Crash.
From Verif Require Import SpecBin SpecDataSet SpecDisc SpecSaved SpecUtf8 SpecCrash.
From Verif Require Import DataFacts DiscCtorProofs CtorFacts DiscFacts JsonFacts CrashProofs Utf8Proofs PropsDisc PropsJson.

(** C116 is false: a data set of which only the beginning was written loads without any error, with
    entries missing; the entry that was cut can come back as an image that nobody added; or the read
    is undefined. *)
Definition zigzag : bininput := BinInput 0 ["170"%char; "170"%char; "170"%char; "170"%char].
Theorem C116_cut_dataset_refuted :
  let l := [(one_pixel, lit "yes"); (zigzag, lit "no!")] in
  let path := lit "d" ++ dataset_sufix in
  let load k := ds_load (snd (ds_save_cut k disk (adds l) (lit "d"))) path in
  ds_load (snd (ds_save disk (adds l) (lit "d"))) path = Ok (adds l) /\
  load 9%nat = Ok (adds [(one_pixel, lit "yes")]) /\
  load 19%nat = Ok (adds [(one_pixel, lit "yes"); (BinInput 0 ["170"%char; "170"%char], lit "no!")]) /\
  load 10%nat = UB UBIndex.
Proof.
  split; [reflexivity|]. split; [vm_compute; reflexivity|]. split; vm_compute; reflexivity.
Qed.
Print Assumptions C116_cut_dataset_refuted.
(** What holds: the entries wholly written come back unchanged and in order, at most one more entry
    follows them, and loading ends. Missing: any report that something is missing, and that the extra
    entry is one that was added. *)
Theorem C116_cut_dataset_partial : forall k f l prefix, l <> [] -> len l <= INT_MAX ->
  Forall (fun bl => bin_made bl.1 /\ bin_size bl.1 <= 4294967296 /\ bl.2 <> [] /\ len bl.2 <= 536870912) l ->
  len (prefix ++ dataset_sufix) < W64 ->
  fs_writable f (prefix ++ dataset_sufix) = true -> fs_files f !! (prefix ++ dataset_sufix) = None ->
  exists n, whole_items record_size (Z.of_nat k) l n /\
    match ds_load (snd (ds_save_cut k f (adds l) prefix)) (prefix ++ dataset_sufix) with
    | Ok d => (ds_size d = Z.of_nat n \/ (ds_size d = Z.of_nat n + 1 /\ (n < length l)%nat)) /\
              forall i b s, (i < n)%nat -> l !! i = Some (b, s) ->
                ds_get d (Z.of_nat i) = Ok b /\ ds_getLabel d (Z.of_nat i) = Ok s
    | Throw _ => (n < length l)%nat
    | UB u => (n < length l)%nat /\ u = UBIndex
    | Hang => False
    end.
Proof. exact load_cut_spec. Qed.
Print Assumptions C116_cut_dataset_partial.
Example C116_witness : let l := [(one_pixel, lit "yes"); (zigzag, lit "no!")] in
  Forall (fun bl : bininput * list ascii => bin_made bl.1 /\ bin_size bl.1 <= 4294967296 /\ bl.2 <> [] /\ len bl.2 <= 536870912) l /\
  file_size record_size l = 23 /\ whole_items record_size 9 l 1 /\ whole_items record_size 19 l 1 /\ whole_items record_size 23 l 2.
Proof.
  cbv zeta. split.
  { assert (bin_made zigzag) by (apply (made_list (concat (replicate 16 [1; 0]))); [unfold bin_limit; vm_compute; congruence|reflexivity]).
    repeat constructor; cbn [fst snd]; auto using one_pixel_made; vm_compute; congruence. }
  split; [vm_compute; reflexivity|].
  unfold whole_items. cbn [length take]. repeat split; try lia; try (vm_compute; congruence); try (right; vm_compute; reflexivity); left; reflexivity.
Qed.

(** C117 is false: the text returned by json(true,path) gives back, without any error, a discriminator
    that has lost RAMs if its data file was cut between two of them, and patterns if it was cut
    within one. *)
Theorem C117_cut_discriminator_refuted :
  let reload k := let '(r, f') := disc_json_cut k it0 (lit "AbCdEfGh12") disk told (lit "dir/") in let* j := r in disc_of_json f' j in
  disc_classify told img1 = Ok [1; 1] /\
  (let* d := reload 49%nat in disc_classify d img1) = Ok [1; 1] /\
  (let* d := reload 16%nat in disc_classify d img1) = Ok [1] /\
  (let* d := reload 33%nat in disc_classify d img1) = Ok [1; 0] /\
  reload 5%nat = Throw EOutOfRange /\ reload 7%nat = UB UBIndex.
Proof. vm_compute. auto 10. Qed.
Print Assumptions C117_cut_discriminator_refuted.
(** What holds: json(true,path) does not notice; reloading its text then ends, and if it succeeds then
    the first RAMs (those wholly written) answer as before, at most one more answers as before or 0,
    and the others are gone. Missing: any report. *)
Theorem C117_cut_discriminator_partial : forall k iter rnd f path d0 h d,
  good_iter iter -> constructed d0 -> Forall (Forall is_int) (disc_mapping d0) ->
  all_valid d0 h -> len h <= INT_MAX -> run d0 h = (Ok tt, d) -> (exists x, Train x ∈ h) -> saved_size d <= INT_MAX + 1 ->
  let name := path ++ rnd ++ lit ".wdpkg" in
  is_utf8 name -> len name < W64 -> fs_writable f name = true -> fs_read f name = None ->
  exists j f' n, disc_json_cut k iter rnd f d path = (Ok j, f') /\ whole_items ram_size (Z.of_nat k) (d_rams d) n /\
    match disc_of_json f' j with
    | Ok d' => d_entrySize d' = d_entrySize d /\ d_count d' = d_count d /\
        forall im votes, disc_classify d im = Ok votes ->
          exists more, disc_classify d' im = Ok (take n votes ++ more) /\
            (more = [] \/ more = [0] \/ exists v, more = [v] /\ votes !! n = Some v)
    | Throw e => (n < length (d_rams d))%nat /\ e = EOutOfRange
    | UB u => (n < length (d_rams d))%nat /\ u = UBIndex
    | Hang => False
    end.
Proof.
  cbv zeta. setoid_rewrite <- utf8_ok_iff. intros k iter rnd f path d0 h d Hi Hc Hm Hv Hl E Hx Hs Hu Hn Hw Hr.
  assert (Hst : JsonProofs.storable iter d).
  { pose proof (DiscFacts.run_inv d0 h d Hc Hv Hl E) as Ha. destruct (constructed_uniform d0 Hc) as (iz & base & Hun).
    eapply after_storable; eauto using constructed_fresh. }
  destruct (disc_cut k iter rnd f path d Hi Hst Hu Hn Hw Hr) as (j & f' & n & E1 & E2 & E3). exists j, f', n. split; [exact E1|]. split; [exact E2|].
  destruct (disc_of_json f' j) as [d'| | |]; try exact E3. destruct E3 as (A & B & C). split; [exact A|]. split; [exact B|].
  intros im votes Hvo. eapply votes_left; eassumption.
Qed.
Print Assumptions C117_cut_discriminator_partial.
Example C117_witness : constructed demo /\ Forall (Forall is_int) (disc_mapping demo) /\ all_valid demo story /\
  run demo story = (Ok tt, told) /\ Train img1 ∈ story /\ saved_size told = 50 /\
  file_size ram_size (d_rams told) = 49 /\ whole_items ram_size 16 (d_rams told) 1 /\ whole_items ram_size 33 (d_rams told) 1.
Proof.
  split; [apply demo_constructed|]. split; [apply demo_ints|]. split; [apply demo_history|]. split; [apply demo_history|].
  split; [left|]. split; [vm_compute; reflexivity|]. split; [vm_compute; reflexivity|].
  split; (split; [vm_compute; lia|]; split; [vm_compute; congruence|]; right; vm_compute; reflexivity).
Qed.
