(** Composite facts behind the property theorems of PropsData.v. *)
From Verif Require Import Prelude Bytes Base64 Utils BinInput Ram Json Fs RamData DataSet.
From Verif Require Import SpecBase64 SpecBin SpecDataSet.
From Verif Require Import Base64Proofs BytesProofs BinProofs BinAnyProofs UtilsProofs TextProofs RamDataProofs HandleProofs DataSetProofs.

Lemma encode_text s :
  len (encode s) = 4 * ((len s + 2) / 3) /\
  Forall (fun c => in_alphabet c \/ c = "="%char) (encode s) /\
  "."%char ∉ encode s /\ "#"%char ∉ encode s.
Proof. auto using encode_length4, encode_charset, encode_no_dot, encode_no_sharp. Qed.

Lemma set_get b i v : bin_made b -> 0 <= i < bin_size b -> is_bit v ->
  exists b', bin_set b i v = (Ok tt, b') /\ bin_size b' = bin_size b /\ bin_get b' i = Ok v /\
    forall j, j <> i -> 0 <= j -> bin_get b' j = bin_get b j.
Proof. intros Hb. apply bin_set_get, bin_made_wf, Hb. Qed.

Lemma built_from_list l : len l <= bin_limit -> Forall is_bit l ->
  exists b, bin_of_list l = Ok b /\ bin_size b = len l /\
    forall i v, l !! i = Some v -> bin_get b (Z.of_nat i) = Ok v.
Proof.
  intros Hl Hall. destruct (bin_of_list_spec l Hl Hall) as (b & H1 & _ & H2 & H3). exists b. auto.
Qed.

Lemma built_from_size n : 0 <= n <= bin_limit ->
  bin_size (bin_of_size n) = n /\ forall i, 0 <= i < n -> bin_get (bin_of_size n) i = Ok 0.
Proof.
  intros Hn. split; [apply bin_of_size_wf, Hn|]. intros i Hi. apply bin_get_zero; assumption.
Qed.

Lemma out_of_range b i v : bin_size b <= i ->
  bin_get b i = Throw index_exn /\ bin_set b i v = (Throw index_exn, b).
Proof. intros H. auto using bin_get_out, bin_set_out. Qed.

Lemma get_set_range b i v : bin_made b -> 0 <= i ->
  ((exists x, bin_get b i = Ok x /\ is_bit x) <-> i < bin_size b) /\
  (fst (bin_set b i v) = Ok tt <-> i < bin_size b).
Proof.
  intros Hb Hi. apply bin_made_wf in Hb. split; split.
  - intros (x & Hx & _). destruct (Z_lt_le_dec i (bin_size b)); [assumption|]. rewrite bin_get_out in Hx by assumption. discriminate.
  - intros H. destruct (bin_get_ok b i Hb ltac:(lia)) as (c & _ & Hg). exists (bitc c (7 - i mod 8)).
    split; [exact Hg|]. apply bitc_01.
  - intros Hx. destruct (Z_lt_le_dec i (bin_size b)); [assumption|]. rewrite bin_set_out in Hx by assumption. discriminate.
  - intros H. destruct (bin_set_ok b i v Hb ltac:(lia)) as (c & _ & Hg). rewrite Hg. reflexivity.
Qed.

Lemma data_roundtrip b : bin_made b -> bin_of_data (bin_data b) = Ok b.
Proof. intros H. apply bin_wf_load, bin_made_wf, H. Qed.

(** set with 3 at index 1 of an all-zero 8-bit input turns index 0 on. *)
Lemma set_disturbs : exists b i v j b',
  bin_clean b /\ 0 <= i < bin_size b /\ bin_set b i v = (Ok tt, b') /\ j <> i /\
  bin_get b j = Ok 0 /\ bin_get b' j = Ok 1.
Proof.
  exists (bin_of_size 8), 1, 3, 0, (BinInput 0 ["192"%char]).
  split; [apply clean_size; unfold bin_limit; lia|].
  split; [vm_compute; split; congruence|]. repeat split; vm_compute; congruence.
Qed.

Lemma set_any b i v : bin_made b -> 0 <= i < bin_size b ->
  exists b', bin_set b i v = (Ok tt, b') /\ bin_size b' = bin_size b /\ bin_get b' i = Ok (v mod 2) /\
    (forall j, 0 <= j -> j <> i -> (j / 8 <> i / 8 \/ i < j) -> bin_get b' j = bin_get b j) /\
    (forall j x, j < i -> j / 8 = i / 8 -> bin_get b j = Ok x ->
       bin_get b' j = Ok (Z.lor x ((v / 2 ^ (i - j)) mod 2))).
Proof. intros Hb. apply bin_set_any, bin_made_wf, Hb. Qed.

(** ** Data sets *)
Definition ds_fs0 : fs := Fs ∅ (fun _ => true).
Definition one_pixel : bininput := BinInput 7 ["128"%char].

Lemma save_load f l prefix : l <> [] -> len l <= INT_MAX ->
  Forall (fun bl => bin_made bl.1 /\ bin_size bl.1 <= 4294967296 /\ bl.2 <> [] /\ len bl.2 <= 536870912) l ->
  len (prefix ++ dataset_sufix) < W64 ->
  fs_writable f (prefix ++ dataset_sufix) = true -> fs_files f !! (prefix ++ dataset_sufix) = None ->
  exists f', ds_save f (adds l) prefix = (adds l, f') /\ ds_load f' (prefix ++ dataset_sufix) = Ok (adds l).
Proof.
  intros Hne Hl Hall Hp Hw Hn. exists (snd (ds_save f (adds l) prefix)). split.
  - rewrite <- (ds_save_same f l prefix Hl) at 2; [apply surjective_pairing|].
    eapply Forall_impl; [exact Hall|]. intros x (_ & _ & H & _). exact H.
  - rewrite ds_roundtrip; auto.
    + destruct (decide _) as [_|Hbad]; [reflexivity|]. exfalso. apply Hbad. split; [exact Hne|].
      eapply Forall_impl; [exact Hall|]. intros x (_ & _ & H & _). exact H.
    + eapply Forall_impl; [exact Hall|]. intros x (H1 & H2 & _ & H4). auto.
Qed.

Lemma one_pixel_made : bin_made one_pixel.
Proof. apply (made_list [1]); [unfold bin_limit; vm_compute; congruence|]. reflexivity. Qed.

(** Empty, unlabelled, saved twice. *)
Lemma save_load_fails :
  let f0 := Fs ∅ (fun _ => true) in
  let path := lit "d" ++ dataset_sufix in
  let reload l := ds_load (snd (ds_save f0 (adds l) (lit "d"))) path in
  reload [] = UB UBIndex /\
  reload [(one_pixel, [])] = UB UBIndex /\
  (let l := [(one_pixel, lit "a")] in
   let '(d1, f1) := ds_save f0 (adds l) (lit "d") in
   let '(d2, f2) := ds_save f1 d1 (lit "d") in
   d2 = adds l /\ exists r, ds_load f2 path = r /\ r <> Ok (adds l)).
Proof.
  cbv zeta. split; [vm_compute; reflexivity|]. split; [vm_compute; reflexivity|].
  destruct (ds_save _ _ _) as [d1 f1] eqn:E1. vm_compute in E1. injection E1 as <- <-.
  destruct (ds_save _ _ _) as [d2 f2] eqn:E2. vm_compute in E2. injection E2 as <- <-.
  split; [vm_compute; reflexivity|]. eexists. split; [reflexivity|]. vm_compute. congruence.
Qed.

Lemma save_load_iff f l prefix : len l <= INT_MAX ->
  Forall (fun bl => bin_made bl.1 /\ bin_size bl.1 <= 4294967296 /\ len bl.2 <= 536870912) l ->
  len (prefix ++ dataset_sufix) < W64 ->
  fs_writable f (prefix ++ dataset_sufix) = true -> fs_files f !! (prefix ++ dataset_sufix) = None ->
  let outcome := ds_load (snd (ds_save f (adds l) prefix)) (prefix ++ dataset_sufix) in
  (l <> [] /\ Forall (fun bl => bl.2 <> []) l -> outcome = Ok (adds l)) /\
  (l = [] \/ Exists (fun bl => bl.2 = []) l -> outcome = UB UBIndex).
Proof.
  intros Hl Hall Hp Hw Hn. cbv zeta. rewrite ds_roundtrip by assumption. split.
  - intros H. destruct (decide _); [reflexivity|contradiction].
  - intros Hor. destruct (decide _) as [[H1 H2]|]; [|reflexivity]. destruct Hor as [|He]; [contradiction|].
    exfalso. apply Exists_exists in He as (x & Hx & E). rewrite Forall_forall in H2. apply (H2 x Hx E).
Qed.

(** ** Handles *)
(** RAMs indexed 0..n-1, each non-empty, addresses 64-bit, contents int. *)
Definition handle_ok (h : gmap Z (gmap Z Z)) (n : nat) : Prop :=
  (forall i, h !! i <> None <-> 0 <= i < Z.of_nat n) /\
  (forall i m, h !! i = Some m -> m <> ∅ /\
     forall a v, m !! a = Some v -> 0 <= a < W64 /\ INT_MIN <= v <= INT_MAX).

Lemma handle_ok_repr h n : handle_ok h n -> exists ms, hrepr h ms /\ length ms = n /\
  Forall (fun m => valid_entries m /\ m <> ∅) ms.
Proof.
  intros [Hdom Hval].
  set (ms := (fun i => default ∅ (h !! Z.of_nat i)) <$> seq 0 n).
  assert (hrepr h ms) as Hr.
  { intros i. destruct (Z.leb_spec 0 i).
    - unfold ms. rewrite list_lookup_fmap. destruct (decide (Z.to_nat i < n)%nat) as [Hlt|Hge].
      + rewrite lookup_seq_lt by exact Hlt. cbn. rewrite Z2Nat.id by lia.
        destruct (h !! i) eqn:E; [reflexivity|]. exfalso. apply (Hdom i); [lia|exact E].
      + rewrite lookup_seq_ge by lia. cbn. destruct (h !! i) eqn:E; [|reflexivity]. exfalso.
        assert (h !! i <> None) as Hs by congruence. apply Hdom in Hs. lia.
    - destruct (h !! i) eqn:E; [|reflexivity]. exfalso.
      assert (h !! i <> None) as Hs by congruence. apply Hdom in Hs. lia. }
  exists ms. split; [exact Hr|]. split; [unfold ms; rewrite fmap_length, seq_length; reflexivity|].
  apply Forall_lookup. intros i m Hm.
  assert (h !! Z.of_nat i = Some m) as Hh.
  { rewrite Hr. destruct (Z.leb_spec 0 (Z.of_nat i)); [|lia]. rewrite Nat2Z.id. exact Hm. }
  destruct (Hval _ _ Hh) as [H1 H2]. split; [exact H2|exact H1].
Qed.

Lemma handle_roundtrip iter f h n : valid_iter iter -> handle_ok h n -> (n > 0)%nat -> Z.of_nat n <= INT_MAX ->
  exists text, (forall fuel, (n <= fuel)%nat -> handle_data fuel iter h = Ok (text, h)) /\
    (len text <= INT_MAX -> handle_of_text f text = Ok h).
Proof.
  intros Hi Hok Hn Hmax. destruct (handle_ok_repr h n Hok) as (ms & Hr & Hlen & Hall).
  exists (join_dots (ram_text iter <$> ms)). split.
  - intros fuel Hf. apply handle_data_spec; [exact Hr| |lia]. unfold len. lia.
  - intros Hl. apply (handle_text_roundtrip iter f h ms); auto. destruct ms; [cbn in Hlen; lia|congruence].
Qed.

Lemma set_get_handle h r a v : INT_MIN <= a <= INT_MAX ->
  fst (handle_get (handle_set h r a v) r a) = v /\
  forall r' a', INT_MIN <= a' <= INT_MAX -> (r', a') <> (r, a) ->
    fst (handle_get (handle_set h r a v) r' a') = fst (handle_get h r' a').
Proof.
  intros Ha. split; [apply handle_set_get|]. intros r' a' Ha' Hne. apply handle_set_other; assumption.
Qed.

Lemma compare_spec h o : handle_compare h o = true <->
  (forall r, match h !! r, o !! r with
             | Some m, Some m' => forall a, m !! a = m' !! a
             | None, None => True
             | _, _ => False
             end).
Proof.
  rewrite handle_compare_spec. split.
  - intros <- r. destruct (h !! r); auto.
  - intros H. apply map_eq. intros r. specialize (H r). destruct (h !! r), (o !! r); try contradiction; [|reflexivity].
    f_equal. apply map_eq. exact H.
Qed.

Lemma compare_equivalence h1 h2 h3 :
  handle_compare h1 h1 = true /\
  (handle_compare h1 h2 = true -> handle_compare h2 h1 = true) /\
  (handle_compare h1 h2 = true -> handle_compare h2 h3 = true -> handle_compare h1 h3 = true).
Proof. rewrite !handle_compare_spec. repeat split; congruence. Qed.

Lemma get_changes :
  exists (h : gmap Z (gmap Z Z)) r a, handle_compare h (snd (handle_get h r a)) = false /\
    (exists r' a', forall fuel iter, handle_data fuel iter (snd (handle_get h r' a')) = Hang).
Proof.
  exists ∅, 0, 5. split; [vm_compute; reflexivity|]. exists (-1), 0. intros fuel iter.
  apply (handle_data_hangs fuel iter _ {[0 := 0]}). vm_compute. reflexivity.
Qed.

Lemma get_present_unchanged h r a m v : h !! r = Some m ->
  handle_get_ram h r = (m, h) /\ (m !! u64 a = Some v -> handle_get h r a = (v, h)).
Proof.
  intros Hr. split; [apply handle_get_ram_present, Hr|]. intros Ha. eapply handle_get_present; eassumption.
Qed.

Lemma bytes_roundtrip :
  (forall a, 0 <= a < W64 -> length (bytes_of_addr a) = 8%nat /\ addr_of_bytes (bytes_of_addr a) = a) /\
  (forall v, INT_MIN <= v <= INT_MAX -> length (bytes_of_content v) = 4%nat /\ content_of_bytes (bytes_of_content v) = v).
Proof.
  split; intros x Hx.
  - split; [apply le_bytes_length|apply addr_bytes_roundtrip, Hx].
  - split; [apply le_bytes_length|apply content_bytes_roundtrip, Hx].
Qed.

Lemma ipow_spec b e : 0 <= e <= INT_MAX ->
  (LL_MIN <= b ^ e <= LL_MAX -> ipow b e = Ok (b ^ e)) /\ ipow b e <> Hang.
Proof.
  intros He. assert (0 <= e <= LL_MAX) as He' by (unfold LL_MAX, INT_MAX in *; lia). split.
  - intros H. apply ipow_exact; assumption.
  - destruct (ipow_total b e He') as [[v ->]| ->]; discriminate.
Qed.
