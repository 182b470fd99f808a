(** Property theorems C01-C17 and C82: base64, BinInput, DataSet, RAMDataHandle, helpers. *)
From Verif Require Import Prelude Bytes Base64 Utils BinInput Ram Json Fs RamData DataSet.
From Verif Require Import SpecBase64 SpecBin SpecDataSet.
From Verif Require Import Base64Proofs DecodeProofs RamDataProofs DataSetProofs DataFacts.

(** C01: decode(encode(s)) = s for every non-empty byte string. *)
Theorem C01_base64_roundtrip : forall s, s <> [] -> decode (encode s) = Ok s.
Proof. exact decode_encode. Qed.
Print Assumptions C01_base64_roundtrip.
Example C01_witness : decode (encode ["000"; "255"; "010"; "128"]%char) = Ok ["000"; "255"; "010"; "128"]%char.
Proof. vm_compute. reflexivity. Qed.

(** C02: the text is the RFC 4648 encoding (specification in SpecBase64.v). *)
Theorem C02_base64_rfc4648 : forall s, encode s = rfc4648 s.
Proof. exact encode_rfc. Qed.
Print Assumptions C02_base64_rfc4648.
(** RFC 4648 section 10 test vectors. *)
Example C02_witness : encode (lit "foobar") = lit "Zm9vYmFy" /\ rfc4648 (lit "fooba") = lit "Zm9vYmE=".
Proof. vm_compute. auto. Qed.

(** C03: length and characters of the text. *)
Theorem C03_base64_text : forall s,
  len (encode s) = 4 * ((len s + 2) / 3) /\
  Forall (fun c => in_alphabet c \/ c = "="%char) (encode s) /\
  "."%char ∉ encode s /\ "#"%char ∉ encode s.
Proof. exact encode_text. Qed.
Print Assumptions C03_base64_text.

(** C04: decode is not memory safe on arbitrary text... *)
Theorem C04_decode_refuted : decode [] = UB UBIndex /\ decode (lit "A") = UB UBIndex /\ decode (lit "AAAAA") = UB UBIndex.
Proof. vm_compute. auto. Qed.
Print Assumptions C04_decode_refuted.
(** ... but it is on every non-empty text whose length is a multiple of four, whatever its characters.
    Missing: texts of other lengths, for which the property is false. *)
Theorem C04_decode_safe_partial : forall d, d <> [] -> len d mod 4 = 0 -> exists s, decode d = Ok s.
Proof. exact decode_safe. Qed.
Print Assumptions C04_decode_safe_partial.
(** On texts without padding characters this is exact: decode is safe on the non-empty ones whose
    length is a multiple of four and undefined on all others. Missing: texts of other lengths in
    which an early '=' happens to stop the loop in time. *)
Theorem C04_decode_exact_partial : forall d, "="%char ∉ d ->
  (d <> [] /\ len d mod 4 = 0 -> exists s, decode d = Ok s) /\
  (d = [] \/ len d mod 4 <> 0 -> decode d = UB UBIndex).
Proof. intros d Hp. split; [intros [H1 H2]; exact (decode_safe d H1 H2)|exact (decode_unsafe d Hp)]. Qed.
Print Assumptions C04_decode_exact_partial.
Example C04_witness : lit "!!==" <> [] /\ len (lit "!!==") mod 4 = 0.
Proof. split; [discriminate|reflexivity]. Qed.

(** C05: set/get law. [bin_made]: obtained from the constructors, set and reloading. *)
Theorem C05_bininput_set_get : forall b i v, bin_made b -> 0 <= i < bin_size b -> is_bit v ->
  exists b', bin_set b i v = (Ok tt, b') /\ bin_size b' = bin_size b /\ bin_get b' i = Ok v /\
    forall j, j <> i -> 0 <= j -> bin_get b' j = bin_get b j.
Proof. exact set_get. Qed.
Print Assumptions C05_bininput_set_get.
Example C05_witness : bin_made (bin_of_size 11) /\ 0 <= 10 < bin_size (bin_of_size 11) /\ is_bit 1.
Proof. split; [apply made_size; unfold bin_limit; lia|]. split; [vm_compute; split; congruence|right; reflexivity]. Qed.

(** C06: contents after construction. *)
Theorem C06_bininput_of_list : forall l, len l <= bin_limit -> Forall is_bit l ->
  exists b, bin_of_list l = Ok b /\ bin_size b = len l /\
    forall i v, l !! i = Some v -> bin_get b (Z.of_nat i) = Ok v.
Proof. exact built_from_list. Qed.
Print Assumptions C06_bininput_of_list.
Theorem C06_bininput_of_size : forall n, 0 <= n <= bin_limit ->
  bin_size (bin_of_size n) = n /\ forall i, 0 <= i < n -> bin_get (bin_of_size n) i = Ok 0.
Proof. exact built_from_size. Qed.
Print Assumptions C06_bininput_of_size.
Example C06_witness : Forall is_bit [1; 0; 1; 1; 0; 0; 1; 0; 1].
Proof. unfold is_bit. repeat (apply Forall_cons; split; [auto|]). apply Forall_nil. exact I. Qed.

(** C07: out of range accesses throw and change nothing; accesses succeed exactly in range. *)
Theorem C07_bininput_out_of_range : forall b i v, bin_size b <= i ->
  bin_get b i = Throw (EWisard "Index out of range!") /\ bin_set b i v = (Throw (EWisard "Index out of range!"), b).
Proof. exact out_of_range. Qed.
Print Assumptions C07_bininput_out_of_range.
Theorem C07_bininput_range : forall b i v, bin_made b -> 0 <= i ->
  ((exists x, bin_get b i = Ok x /\ is_bit x) <-> i < bin_size b) /\
  (fst (bin_set b i v) = Ok tt <-> i < bin_size b).
Proof. exact get_set_range. Qed.
Print Assumptions C07_bininput_range.
Example C07_witness : bin_size (bin_of_size 5) <= 5 /\ len (b_input (bin_of_size 5)) = 1.
Proof. vm_compute. split; congruence. Qed.

(** C08: serialisation round trip (equality of objects, hence of size and bits). *)
Theorem C08_bininput_roundtrip : forall b, bin_made b -> bin_of_data (bin_data b) = Ok b.
Proof. exact data_roundtrip. Qed.
Print Assumptions C08_bininput_roundtrip.

(** C09: writing a value other than 0/1 disturbs another index... *)
Theorem C09_set_refuted : exists b i v j b',
  bin_clean b /\ 0 <= i < bin_size b /\ bin_set b i v = (Ok tt, b') /\ j <> i /\
  bin_get b j = Ok 0 /\ bin_get b' j = Ok 1.
Proof. exact set_disturbs. Qed.
Print Assumptions C09_set_refuted.
(** ... exact effect of set with any value: bit i receives the value's parity, earlier bits of the
    same byte are or-ed with the value's higher bits, everything else is unchanged.
    Missing: isolation of the earlier bits of the same byte, which is false. *)
Theorem C09_set_any_partial : forall b i v, bin_made b -> 0 <= i < bin_size b ->
  exists b', bin_set b i v = (Ok tt, b') /\ bin_size b' = bin_size b /\ bin_get b' i = Ok (v mod 2) /\
    (forall j, 0 <= j -> j <> i -> (j / 8 <> i / 8 \/ i < j) -> bin_get b' j = bin_get b j) /\
    (forall j x, j < i -> j / 8 = i / 8 -> bin_get b j = Ok x ->
       bin_get b' j = Ok (Z.lor x ((v / 2 ^ (i - j)) mod 2))).
Proof. exact set_any. Qed.
Print Assumptions C09_set_any_partial.

(** C10: a data set is the list of its add calls. *)
Theorem C10_dataset_adds : forall l, len l <= INT_MAX ->
  ds_size (adds l) = len l /\
  forall i, match l !! i with
            | Some (b, s) =>
                ds_get (adds l) (Z.of_nat i) = Ok b /\
                ds_getLabel (adds l) (Z.of_nat i) = (if decide (s = []) then Throw EOutOfRange else Ok s)
            | None => INT_MIN <= Z.of_nat i <= INT_MAX ->
                      ds_getLabel (adds l) (Z.of_nat i) = Throw EOutOfRange
            end.
Proof. exact adds_spec. Qed.
Print Assumptions C10_dataset_adds.
(** The list overload is the BinInput overload on the converted list. *)
Theorem C10_dataset_add_list : forall d l s b, bin_of_list l = Ok b -> ds_add_list d l s = (Ok tt, ds_add d b s).
Proof. exact ds_add_list_spec. Qed.
Print Assumptions C10_dataset_add_list.
(** Any sequence of calls of the four overloads builds the list of what was passed; without a label the
    label is empty. *)
Inductive add_call := AddBin (b : bininput) (s : str) | AddBinOnly (b : bininput) | AddList (l : list Z) (s : str) | AddListOnly (l : list Z).
Definition do_add (c : add_call) (d : dataset) : eff dataset unit :=
  match c with
  | AddBin b s => (Ok tt, ds_add d b s)
  | AddBinOnly b => (Ok tt, ds_add_unlabelled d b)
  | AddList l s => ds_add_list d l s
  | AddListOnly l => ds_add_list_unlabelled d l
  end.
Fixpoint do_adds (cs : list add_call) (d : dataset) : eff dataset unit :=
  match cs with [] => (Ok tt, d) | c :: cs' => ebind (do_add c d) (fun _ d' => do_adds cs' d') end.
Definition passes (c : add_call) (bl : bininput * str) : Prop :=
  match c with
  | AddBin b s => bl = (b, s)
  | AddBinOnly b => bl = (b, [])
  | AddList l s => bin_of_list l = Ok bl.1 /\ bl.2 = s
  | AddListOnly l => bin_of_list l = Ok bl.1 /\ bl.2 = []
  end.
Theorem C10_dataset_calls : forall cs bls, Forall2 passes cs bls -> do_adds cs ds_empty = (Ok tt, adds bls).
Proof.
  intros cs bls H. unfold adds. generalize ds_empty as d. induction H as [|c [b s] cs bls Hc _ IH]; intros d; [reflexivity|].
  cbn [do_adds foldl fst snd]. destruct c as [b' s'|b'|l s'|l]; cbn [passes fst snd] in Hc; cbn [do_add].
  - injection Hc as -> ->. apply IH.
  - injection Hc as -> ->. apply IH.
  - destruct Hc as [Hb ->]. rewrite (ds_add_list_spec _ _ _ _ Hb). apply IH.
  - destruct Hc as [Hb ->]. unfold ds_add_list_unlabelled. rewrite (ds_add_list_spec _ _ _ _ Hb). apply IH.
Qed.
Print Assumptions C10_dataset_calls.
Example C10_calls_witness : exists b, Forall2 passes [AddBinOnly one_pixel; AddList [1; 0] (lit "x"); AddListOnly [1; 0]] [(one_pixel, []); (b, lit "x"); (b, [])].
Proof. eexists. repeat constructor. Qed.
Example C10_witness : ds_getLabel (adds [(one_pixel, []); (one_pixel, lit "x")]) 1 = Ok (lit "x").
Proof. vm_compute. reflexivity. Qed.

(** C11: save then load gives the same data set back, and save does not change it. *)
Theorem C11_dataset_roundtrip : forall f l prefix, l <> [] -> len l <= INT_MAX ->
  Forall (fun bl => bin_made bl.1 /\ bin_size bl.1 <= 4294967296 /\ bl.2 <> [] /\ len bl.2 <= 536870912) l ->
  len (prefix ++ dataset_sufix) < W64 ->
  fs_writable f (prefix ++ dataset_sufix) = true -> fs_files f !! (prefix ++ dataset_sufix) = None ->
  exists f', ds_save f (adds l) prefix = (adds l, f') /\ ds_load f' (prefix ++ dataset_sufix) = Ok (adds l).
Proof. exact save_load. Qed.
Print Assumptions C11_dataset_roundtrip.
Example C11_witness :
  Forall (fun bl : bininput * list ascii => bin_made bl.1 /\ bin_size bl.1 <= 4294967296 /\ bl.2 <> [] /\ len bl.2 <= 536870912)
    [(one_pixel, lit "a.b#c"); (one_pixel, lit "y")].
Proof. repeat constructor; cbn; try apply one_pixel_made; vm_compute; congruence. Qed.

(** C12: not for empty data sets, unlabelled entries, or a path saved twice... *)
Theorem C12_dataset_refuted :
  let f0 := Fs ∅ (fun _ => true) in
  let path := lit "d" ++ dataset_sufix in
  let reload l := ds_load (snd (ds_save f0 (adds l) (lit "d"))) path in
  reload [] = UB UBIndex /\
  reload [(one_pixel, [])] = UB UBIndex /\
  (let l := [(one_pixel, lit "a")] in
   let '(d1, f1) := ds_save f0 (adds l) (lit "d") in
   let '(d2, f2) := ds_save f1 d1 (lit "d") in
   d2 = adds l /\ exists r, ds_load f2 path = r /\ r <> Ok (adds l)).
Proof. exact save_load_fails. Qed.
Print Assumptions C12_dataset_refuted.
(** ... exact outcome for every data set saved to a fresh path: it comes back if it is non-empty
    and fully labelled and loading is undefined otherwise.
    Paths that already hold a saved data set: C12_saved_over_partial in PropsSaveTwice.v. *)
Theorem C12_dataset_partial : forall f l prefix, len l <= INT_MAX ->
  Forall (fun bl => bin_made bl.1 /\ bin_size bl.1 <= 4294967296 /\ len bl.2 <= 536870912) l ->
  len (prefix ++ dataset_sufix) < W64 ->
  fs_writable f (prefix ++ dataset_sufix) = true -> fs_files f !! (prefix ++ dataset_sufix) = None ->
  let outcome := ds_load (snd (ds_save f (adds l) prefix)) (prefix ++ dataset_sufix) in
  (l <> [] /\ Forall (fun bl => bl.2 <> []) l -> outcome = Ok (adds l)) /\
  (l = [] \/ Exists (fun bl => bl.2 = []) l -> outcome = UB UBIndex).
Proof. exact save_load_iff. Qed.
Print Assumptions C12_dataset_partial.

(** C13: RAMDataHandle(h.data()) = h, for every order of iteration of the hash maps. *)
Theorem C13_handle_roundtrip : forall iter f h n,
  (forall m, iter m ≡ₚ map_to_list m) ->
  (forall i, h !! i <> None <-> 0 <= i < Z.of_nat n) ->
  (forall i m, h !! i = Some m -> m <> ∅ /\
     forall a v, m !! a = Some v -> 0 <= a < W64 /\ INT_MIN <= v <= INT_MAX) ->
  (n > 0)%nat -> Z.of_nat n <= INT_MAX ->
  exists text, (forall fuel, (n <= fuel)%nat -> handle_data fuel iter h = Ok (text, h)) /\
    (len text <= INT_MAX -> handle_of_text f text = Ok h).
Proof. exact (fun iter f h n Hi H1 H2 => handle_roundtrip iter f h n Hi (conj H1 H2)). Qed.
Print Assumptions C13_handle_roundtrip.
Example C13_witness : handle_ok {[0 := {[5 := 3; 18446744073709551615 := -7]}; 1 := {[0 := 1]}]} 2.
Proof.
  split.
  - intros i.
    destruct (decide (i = 0)) as [->|H0]; [vm_compute; split; [split; congruence|congruence]|].
    destruct (decide (i = 1)) as [->|H1]; [vm_compute; split; [split; congruence|congruence]|].
    rewrite lookup_insert_ne, lookup_singleton_ne by congruence. split; [congruence|lia].
  - intros i m. rewrite lookup_insert_Some, lookup_singleton_Some. intros [[_ <-]|[_ [_ <-]]].
    + split; [apply insert_non_empty|]. intros a v. rewrite lookup_insert_Some, lookup_singleton_Some.
      intros [[<- <-]|[_ [<- <-]]]; unfold W64, INT_MIN, INT_MAX; lia.
    + split; [apply map_non_empty_singleton|]. intros a v. rewrite lookup_singleton_Some.
      intros [<- <-]; unfold W64, INT_MIN, INT_MAX; lia.
Qed.

(** C14: set/get law of handles. *)
Theorem C14_handle_set_get : forall h r a v, INT_MIN <= a <= INT_MAX ->
  fst (handle_get (handle_set h r a v) r a) = v /\
  forall r' a', INT_MIN <= a' <= INT_MAX -> (r', a') <> (r, a) ->
    fst (handle_get (handle_set h r a v) r' a') = fst (handle_get h r' a').
Proof. exact set_get_handle. Qed.
Print Assumptions C14_handle_set_get.

(** C15: compare is equality of contents. *)
Theorem C15_handle_compare : forall h o, handle_compare h o = true <->
  (forall r, match h !! r, o !! r with
             | Some m, Some m' => forall a, m !! a = m' !! a
             | None, None => True
             | _, _ => False
             end).
Proof. exact compare_spec. Qed.
Print Assumptions C15_handle_compare.
Theorem C15_handle_compare_equivalence : forall h1 h2 h3,
  handle_compare h1 h1 = true /\
  (handle_compare h1 h2 = true -> handle_compare h2 h1 = true) /\
  (handle_compare h1 h2 = true -> handle_compare h2 h3 = true -> handle_compare h1 h3 = true).
Proof. exact compare_equivalence. Qed.
Print Assumptions C15_handle_compare_equivalence.

(** C16: a read of a missing entry changes the handle, and a read at a negative RAM index makes
    data() run forever... *)
Theorem C16_handle_get_refuted :
  exists (h : gmap Z (gmap Z Z)) r a, handle_compare h (snd (handle_get h r a)) = false /\
    (exists r' a', forall fuel iter, handle_data fuel iter (snd (handle_get h r' a')) = Hang).
Proof. exact get_changes. Qed.
Print Assumptions C16_handle_get_refuted.
(** ... reads of present entries change nothing (and data() terminates without change on handles
    indexed 0..n-1, C13). Missing: absent entries, for which it is false. *)
Theorem C16_handle_get_partial : forall (h : gmap Z (gmap Z Z)) r a m v, h !! r = Some m ->
  handle_get_ram h r = (m, h) /\ (m !! u64 a = Some v -> handle_get h r a = (v, h)).
Proof. exact get_present_unchanged. Qed.
Print Assumptions C16_handle_get_partial.
(** Every read returns the value stored there, 0 if there is none; the only change is that the entry
    read exists afterwards with the value returned, so no later read sees a different value. *)
Theorem C16_handle_get_effect_partial : forall (h : gmap Z (gmap Z Z)) r a v h', handle_get h r a = (v, h') ->
  (forall m, h !! r = Some m -> m !! u64 a = Some v \/ (m !! u64 a = None /\ v = 0)) /\
  (h !! r = None -> v = 0) /\
  (forall r', r' <> r -> h' !! r' = h !! r') /\
  (exists m', h' !! r = Some m' /\ m' !! u64 a = Some v /\
     forall k, k <> u64 a -> m' !! k = match h !! r with Some m => m !! k | None => None end) /\
  (forall r' a', fst (handle_get h' r' a') = fst (handle_get h r' a')).
Proof.
  intros h r a v h' E.
  assert (G : forall (h : gmap Z (gmap Z Z)) r a, fst (handle_get h r a) = match h !! r with Some m => match m !! u64 a with Some v => v | None => 0 end | None => 0 end).
  { intros h0 r0 a0. unfold handle_get, touch. destruct (h0 !! r0) as [m|]; [destruct (m !! u64 a0)|rewrite lookup_empty]; reflexivity. }
  pose proof (G h r a) as Hv. rewrite E in Hv. cbn [fst] in Hv.
  assert (P : (forall r', r' <> r -> h' !! r' = h !! r') /\ (exists m', h' !! r = Some m' /\ m' !! u64 a = Some v /\
     forall k, k <> u64 a -> m' !! k = match h !! r with Some m => m !! k | None => None end)).
  { unfold handle_get, touch in E. destruct (h !! r) as [m|] eqn:Hr.
    - destruct (m !! u64 a) as [w|] eqn:Ha; injection E as <- <-.
      + split; [reflexivity|]. exists m. auto.
      + split; [intros r' H; apply lookup_insert_ne; congruence|]. exists (<[u64 a := 0]> m). rewrite !lookup_insert. split; [reflexivity|]. split; [reflexivity|].
        intros k Hk. apply lookup_insert_ne. congruence.
    - rewrite lookup_empty in E. injection E as <- <-.
      split; [intros r' H; rewrite !lookup_insert_ne by congruence; reflexivity|]. exists (<[u64 a := 0]> ∅). rewrite !lookup_insert. split; [reflexivity|]. split; [reflexivity|].
      intros k Hk. rewrite lookup_insert_ne by congruence. apply lookup_empty. }
  destruct P as [P1 (m' & P2 & P3 & P4)].
  split; [intros m Hm; rewrite Hm in Hv; destruct (m !! u64 a); subst; auto|].
  split; [intros Hn; rewrite Hn in Hv; exact Hv|]. split; [exact P1|]. split; [exists m'; auto|].
  intros r' a'. rewrite !G. destruct (decide (r' = r)) as [->|Hr]; [|rewrite P1 by exact Hr; reflexivity].
  rewrite P2. destruct (decide (u64 a' = u64 a)) as [->|Ha].
  - rewrite P3. exact Hv.
  - rewrite P4 by exact Ha. destruct (h !! r); reflexivity.
Qed.
Print Assumptions C16_handle_get_effect_partial.
Example C16_effect_witness : exists h', handle_get {[ 0 := {[ 5 := 7 ]} ]} 0 6 = (0, h') /\ fst (handle_get h' 0 5) = 7.
Proof. eexists. split; reflexivity. Qed.

(** C17: ipow is exact when the power fits, and terminates for every non-negative int exponent. *)
Theorem C17_ipow : forall b e, 0 <= e <= INT_MAX ->
  (LL_MIN <= b ^ e <= LL_MAX -> ipow b e = Ok (b ^ e)) /\ ipow b e <> Hang.
Proof. exact ipow_spec. Qed.
Print Assumptions C17_ipow.
Example C17_witness : LL_MIN <= (-3) ^ 39 <= LL_MAX /\ ipow (-3) 39 = Ok (-4052555153018976267).
Proof. split; [split; vm_compute; congruence|vm_compute; reflexivity]. Qed.

(** C82: integers through bytes. *)
Theorem C82_bytes_roundtrip :
  (forall a, 0 <= a < W64 -> length (bytes_of_addr a) = 8%nat /\ addr_of_bytes (bytes_of_addr a) = a) /\
  (forall v, INT_MIN <= v <= INT_MAX -> length (bytes_of_content v) = 4%nat /\ content_of_bytes (bytes_of_content v) = v).
Proof. exact bytes_roundtrip. Qed.
Print Assumptions C82_bytes_roundtrip.
