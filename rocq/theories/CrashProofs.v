(** Reading a file of which only the beginning was written (C116, C117). *)
From Verif Require Import Prelude Bytes Base64 Utils BinInput Ram Json Fs RamData Disc DataSet Crash.
From Verif Require Import SpecBase64 SpecBin SpecDataSet SpecDisc SpecSaved SpecCrash.
From Verif Require Import Base64Proofs BytesProofs BinProofs TextProofs RamDataProofs DataSetProofs DecodeProofs DiscCtorProofs CtorFacts JsonNF JsonProofs ReloadTotal RamProofs DiscProofs DiscFacts JsonFacts.

(** ** Cutting a sequence of fields *)
Definition whole (k : nat) (segs : list str) (m : nat) : Prop :=
  (m <= length segs)%nat /\ (length (join_dots (take m segs)) <= k)%nat /\
  (m = length segs \/ (k < length (join_dots (take (S m) segs)))%nat).

Lemma join_length_cons (a b : str) (l : list str) : length (join_dots (a :: b :: l)) = (length a + S (length (join_dots (b :: l))))%nat.
Proof. rewrite join_cons, app_length. cbn [length]. lia. Qed.

Lemma cut_join (segs : list str) : segs <> [] -> forall k : nat, exists (n : nat) (r s : str),
  segs !! n = Some s /\ r `prefix_of` s /\ take k (join_dots segs) = join_dots (take n segs ++ [r]) /\
  ((r = s /\ whole k segs (S n)) \/ (r <> s /\ whole k segs n)).
Proof.
  induction segs as [|s segs IH]; intros Hne k; [congruence|]. clear Hne.
  destruct segs as [|t segs].
  - exists 0%nat, (take k s), s. split; [reflexivity|]. split; [exists (drop k s); symmetry; apply take_drop|].
    cbn [join_dots take app]. split; [reflexivity|].
    destruct (decide (length s <= k)%nat) as [Hk|Hk].
    + left. split; [apply take_ge; exact Hk|]. split; [cbn; lia|]. split; [cbn [take join_dots]; exact Hk|left; reflexivity].
    + right. split; [intros E; apply (f_equal length) in E; rewrite take_length in E; lia|].
      split; [cbn; lia|]. split; [cbn; lia|right; cbn [take join_dots]; lia].
  - destruct (decide (length s < k)%nat) as [Hk|Hk].
    + destruct (IH ltac:(congruence) (k - S (length s))%nat) as (n & r & s' & Hn & Hr & Ht & Hw).
      exists (S n), r, s'. split; [exact Hn|]. split; [exact Hr|].
      assert (J : forall m : nat, (0 < m)%nat -> length (join_dots (take (S m) (s :: t :: segs))) = (S (length s) + length (join_dots (take m (t :: segs))))%nat).
      { intros [|m] Hm; [lia|]. cbn [take]. rewrite join_length_cons. lia. }
      split.
      * rewrite join_cons. rewrite take_app_ge by lia. replace (k - length s)%nat with (S (k - S (length s))) by lia. cbn [take app].
        destruct (take n (t :: segs) ++ [r]) as [|x xs] eqn:E; [destruct (take n (t :: segs)); discriminate|].
        rewrite join_cons. rewrite Ht. reflexivity.
      * assert (W : forall m, whole (k - S (length s)) (t :: segs) m -> whole k (s :: t :: segs) (S m)).
        { intros m (W1 & W2 & W3). split; [cbn [length] in *; lia|]. split.
          - destruct m as [|m]; [cbn [take join_dots]; lia|]. rewrite J by lia. lia.
          - destruct W3 as [->|W3]; [left; reflexivity|right]. rewrite J by lia. lia. }
        destruct Hw as [[H1 H2]|[H1 H2]]; [left|right]; (split; [exact H1|apply W; exact H2]).
    + exists 0%nat, (take k s), s. split; [reflexivity|]. split; [exists (drop k s); symmetry; apply take_drop|].
      split; [rewrite join_cons, take_app_le by lia; reflexivity|].
      destruct (decide (k = length s)) as [->|Hne].
      * left. split; [apply take_ge; lia|]. split; [cbn; lia|]. split; [cbn [take join_dots]; lia|right].
        cbn [take]. rewrite join_length_cons. lia.
      * right. split; [intros E; apply (f_equal length) in E; rewrite take_length in E; lia|].
        split; [cbn; lia|]. split; [cbn; lia|right; cbn [take join_dots]; lia].
Qed.

Lemma file_size_join {A} (item : A -> Z) (f : A -> str) (l : list A) : Forall (fun x => len (f x) = item x) l ->
  file_size item l = Z.of_nat (length (join_dots (f <$> l))).
Proof.
  intros H. destruct l as [|x l]; [reflexivity|]. unfold file_size. revert x H. induction l as [|y l IH]; intros x H.
  - apply Forall_cons in H as [H _]. cbn [foldr fmap list_fmap join_dots]. unfold len in *. cbn [length]. lia.
  - apply Forall_cons in H as [H Hl]. specialize (IH y Hl). rewrite !fmap_cons, join_length_cons.
    cbn [foldr fmap list_fmap] in *. unfold len in *. cbn [length] in *. lia.
Qed.
Lemma whole_items_of {A} (item : A -> Z) (f : A -> str) (l : list A) (k n : nat) : Forall (fun x => len (f x) = item x) l ->
  whole k (f <$> l) n -> whole_items item (Z.of_nat k) l n.
Proof.
  intros H (W1 & W2 & W3). rewrite fmap_length in *. rewrite <- !fmap_take in *.
  split; [exact W1|]. split; [rewrite (file_size_join item f) by (apply Forall_take; exact H); lia|].
  destruct W3 as [->|W3]; [left; reflexivity|right]. rewrite (file_size_join item f) by (apply Forall_take; exact H). lia.
Qed.

Lemma prefix_notin (c : ascii) (r s : str) : r `prefix_of` s -> c ∉ s -> c ∉ r.
Proof. intros [t ->] H Hr. apply H. apply elem_of_app. left. exact Hr. Qed.

(** ** Data sets *)
Lemma rec_text_size b s : bin_wf b -> len (rec_text (b, s)) = record_size (b, s).
Proof.
  intros Hwf. unfold rec_text, bin_data, record_size. cbn [fst snd]. rewrite len_app, len_cons, !encode_length4, len_cons.
  rewrite (bin_wf_size b Hwf). destruct Hwf as (H1 & H2 & H3).
  assert ((len (b_input b) * 8 - b_remain b + 7) / 8 = len (b_input b)) as ->; [|lia].
  symmetry. apply (Z.div_unique _ 8 _ (7 - b_remain b)); lia.
Qed.
Lemma ds_save_cut_file k f l prefix : len l <= INT_MAX ->
  fs_writable f (prefix ++ dataset_sufix) = true -> no_file f (prefix ++ dataset_sufix) ->
  fs_read (snd (ds_save_cut k f (adds l) prefix)) (prefix ++ dataset_sufix) = Some (take k (join_dots (rec_text <$> l))).
Proof.
  intros Hl Hw Hn. unfold ds_save_cut. rewrite adds_data.
  pose proof (save_loop_out l Hl l [] (ds_labels (adds l)) [] eq_refl) as Hout.
  change (len (@nil (bininput * str))) with 0 in Hout.
  destruct (ds_save_loop _ _ _ _) as [labels out] eqn:E. cbn [snd] in *. rewrite Hout.
  - unfold fs_append_cut, fs_append. rewrite Hw. unfold no_file in Hn. rewrite Hn. cbn. unfold fs_read. cbn. rewrite lookup_insert. reflexivity.
  - intros i _. rewrite adds_labels by exact Hl. reflexivity.
Qed.
Lemma ds_records_app l1 l2 : Forall (fun bl => bl.2 <> [] /\ bin_wf bl.1 /\ len (rec_text bl) <= INT_MAX) l1 ->
  ds_records ((rec_text <$> l1) ++ l2) ds_empty = ds_records l2 (adds l1).
Proof.
  unfold adds. generalize ds_empty as d. induction l1 as [|bl l1 IH]; intros d H; [reflexivity|].
  apply Forall_cons in H as [(H1 & H2 & H3) H]. rewrite fmap_cons. cbn [app ds_records foldl].
  rewrite ds_record_ok by assumption. cbn [rbind]. apply IH. exact H.
Qed.

Lemma load_cut k f l prefix : l <> [] -> len l <= INT_MAX ->
  Forall (fun bl => bin_wf bl.1 /\ bl.2 <> [] /\ len (rec_text bl) <= INT_MAX) l ->
  len (prefix ++ dataset_sufix) < W64 ->
  fs_writable f (prefix ++ dataset_sufix) = true -> no_file f (prefix ++ dataset_sufix) ->
  exists (n : nat), whole k (rec_text <$> l) n /\
    let outcome := ds_load (snd (ds_save_cut k f (adds l) prefix)) (prefix ++ dataset_sufix) in
    (outcome = Ok (adds (take n l)) /\ (0 < n)%nat) \/
    ((n < length l)%nat /\ exists r, "."%char ∉ r /\ outcome = ds_records [r] (adds (take n l))).
Proof.
  intros Hne Hl Hall Hp Hw Hn.
  assert (Hnd : Forall (fun s => "."%char ∉ s) (rec_text <$> l)) by (apply Forall_fmap, Forall_true; intros x; apply rec_text_no_dot).
  assert (Hall' : Forall (fun bl => bl.2 <> [] /\ bin_wf bl.1 /\ len (rec_text bl) <= INT_MAX) l).
  { eapply Forall_impl; [exact Hall|]. intros x (? & ? & ?). auto. }
  destruct (cut_join (rec_text <$> l)) with (k := k) as (n & r & s & Hs & Hr & Ht & Hcase); [destruct l; [congruence|discriminate]|].
  assert (E : ds_load (snd (ds_save_cut k f (adds l) prefix)) (prefix ++ dataset_sufix) = ds_records [r] (adds (take n l))).
  { unfold ds_load. rewrite dataset_has_suffix by exact Hp. cbn [rbind negb].
    rewrite ds_save_cut_file by assumption. rewrite Ht. rewrite fields_join.
    - rewrite <- fmap_take. apply ds_records_app. apply Forall_take. exact Hall'.
    - destruct (take n (rec_text <$> l)); discriminate.
    - apply Forall_app. split; [apply Forall_take; exact Hnd|]. constructor; [|constructor].
      eapply prefix_notin; [exact Hr|]. rewrite Forall_lookup in Hnd. exact (Hnd n s Hs). }
  pose proof Hs as Hs'. rewrite list_lookup_fmap in Hs'. destruct (l !! n) as [bl|] eqn:Hbl; [|discriminate]. cbn in Hs'.
  injection Hs' as Hs'. pose proof (lookup_lt_Some _ _ _ Hbl) as Hlt. cbv zeta. rewrite E.
  destruct Hcase as [[-> W]|[Hrs W]].
  - exists (S n). split; [exact W|]. left. split; [|lia]. rewrite <- Hs'. rewrite Forall_lookup in Hall'. destruct (Hall' n bl Hbl) as (H1 & H2 & H3).
    cbn [ds_records]. rewrite ds_record_ok by assumption. cbn [rbind]. rewrite (take_S_r l n bl Hbl). destruct bl as [b lb].
    rewrite adds_snoc. reflexivity.
  - exists n. split; [exact W|]. right. split; [exact Hlt|]. exists r. split; [|reflexivity].
    eapply prefix_notin; [exact Hr|]. rewrite Forall_lookup in Hnd. exact (Hnd n s Hs).
Qed.
Lemma ds_record_fine (U : ub -> Prop) r : U UBIndex -> fine U (ds_record r).
Proof.
  intros HU. unfold ds_record. apply fine_bind; [apply substr_fine|]. intros l _. apply fine_bind; [apply decode_fine; left; exact HU|]. intros lb _.
  apply fine_bind; [apply substr_fine|]. intros d _. apply fine_bind; [|intros; exact I]. unfold bin_of_data.
  apply fine_bind; [apply decode_fine; left; exact HU|]. intros x _. apply fine_bind; [apply substr_fine|]. intros y _. apply fine_bind; [apply substr_fine|]. intros z _. exact I.
Qed.
Lemma adds_first (l l' : list (bininput * str)) (n : nat) : (n <= length l)%nat -> len l <= INT_MAX -> len (take n l ++ l') <= INT_MAX ->
  Forall (fun bl => bl.2 <> []) l ->
  ds_size (adds (take n l ++ l')) = Z.of_nat n + len l' /\ forall i b s, (i < n)%nat -> l !! i = Some (b, s) ->
    ds_get (adds (take n l ++ l')) (Z.of_nat i) = Ok b /\ ds_getLabel (adds (take n l ++ l')) (Z.of_nat i) = Ok s.
Proof.
  intros Hn Hl Hl' Hne. destruct (adds_spec (take n l ++ l') Hl') as [A B]. split.
  - rewrite A, len_app. unfold len. rewrite take_length. lia.
  - intros i b s Hi E. specialize (B i). rewrite lookup_app_l in B by (rewrite take_length; lia). rewrite lookup_take in B by exact Hi. rewrite E in B.
    destruct B as [B1 B2]. split; [exact B1|]. rewrite B2. rewrite Forall_lookup in Hne. pose proof (Hne i (b, s) E) as H. cbn in H.
    destruct (decide (s = [])); [contradiction|reflexivity].
Qed.
Lemma load_cut_spec k f l prefix : l <> [] -> len l <= INT_MAX ->
  Forall (fun bl => bin_made bl.1 /\ bin_size bl.1 <= 4294967296 /\ bl.2 <> [] /\ len bl.2 <= 536870912) l ->
  len (prefix ++ dataset_sufix) < W64 ->
  fs_writable f (prefix ++ dataset_sufix) = true -> fs_files f !! (prefix ++ dataset_sufix) = None ->
  exists n, whole_items record_size (Z.of_nat k) l n /\
    match ds_load (snd (ds_save_cut k f (adds l) prefix)) (prefix ++ dataset_sufix) with
    | Ok d => (ds_size d = Z.of_nat n \/ (ds_size d = Z.of_nat n + 1 /\ (n < length l)%nat)) /\
              forall i b s, (i < n)%nat -> l !! i = Some (b, s) -> ds_get d (Z.of_nat i) = Ok b /\ ds_getLabel d (Z.of_nat i) = Ok s
    | Throw _ => (n < length l)%nat
    | UB u => (n < length l)%nat /\ u = UBIndex
    | Hang => False
    end.
Proof.
  intros Hne Hl Hall Hp Hw Hn.
  assert (Hsz : Forall (fun bl => len (rec_text bl) = record_size bl) l).
  { eapply Forall_impl; [exact Hall|]. intros [b s] (H1 & _). apply rec_text_size, bin_made_wf, H1. }
  assert (Hlab : Forall (fun bl : bininput * str => bl.2 <> []) l) by (eapply Forall_impl; [exact Hall|]; intros x (_ & _ & H & _); exact H).
  destruct (load_cut k f l prefix Hne Hl) as (n & W & H); [|exact Hp|exact Hw|exact Hn|].
  { eapply Forall_impl; [exact Hall|]. intros [b s] (H1 & H2 & H3 & H4). cbn [fst snd] in *. apply bin_made_wf in H1. split; [exact H1|]. split; [exact H3|]. apply rec_text_bound; assumption. }
  exists n. split; [eapply whole_items_of; eassumption|]. pose proof (proj1 W) as Hnl. rewrite fmap_length in Hnl.
  assert (T0 : take n l ++ [] = take n l) by apply app_nil_r.
  cbv zeta in H. destruct H as [[-> _]|(Hlt & r & _ & ->)].
  - destruct (adds_first l [] n Hnl Hl) as [A B]; [rewrite T0; unfold len in *; rewrite take_length; lia|exact Hlab|]. rewrite T0 in A, B.
    change (len (@nil (bininput * str))) with 0 in A. split; [left; lia|exact B].
  - cbn [ds_records]. pose proof (ds_record_fine (fun u => u = UBIndex) r eq_refl) as F. destruct (ds_record r) as [[lb b]|e|u|] eqn:E; cbn [rbind] in *.
    + rewrite <- adds_snoc. destruct (adds_first l [(b, lb)] n Hnl Hl) as [A B]; [rewrite len_app, len_cons; change (len (@nil (bininput * str))) with 0; unfold len in *; rewrite take_length; lia|exact Hlab|].
      split; [right; split; [exact A|exact Hlt]|exact B].
    + exact Hlt.
    + split; [exact Hlt|exact F].
    + exact F.
Qed.

(** ** Discriminators *)
Lemma encode_take (s : str) : forall q : nat, (3 * q <= length s)%nat -> take (4 * q) (encode s) = encode (take (3 * q) s).
Proof.
  induction s as [| | |a b c s IH] using list_ind3; intros q Hq.
  - cbn in Hq. replace q with 0%nat by lia. reflexivity.
  - cbn in Hq. replace q with 0%nat by lia. reflexivity.
  - cbn in Hq. replace q with 0%nat by lia. reflexivity.
  - destruct q as [|q]; [reflexivity|]. cbn [length] in Hq.
    replace (4 * S q)%nat with (S (S (S (S (4 * q))))) by lia. replace (3 * S q)%nat with (S (S (S (3 * q)))) by lia.
    rewrite encode3. cbn [take]. rewrite encode3. rewrite IH by lia. reflexivity.
Qed.
Lemma encode_no_pad (s : str) : (length s mod 3 = 0)%nat -> pad ∉ encode s.
Proof.
  induction s as [| | |a b c s IH] using list_ind3; intros Hm; [apply not_elem_of_nil|discriminate|discriminate|].
  rewrite encode3. assert (length s mod 3 = 0)%nat as Hs.
  { cbn [length] in Hm. replace (S (S (S (length s)))) with (length s + 1 * 3)%nat in Hm by lia. rewrite Nat.mod_add in Hm by lia. exact Hm. }
  rewrite !not_elem_of_cons. repeat split; try (intros E; symmetry in E; revert E; apply char_not_pad; auto using i0_range, i1_range, i2_range, i3_range).
  apply IH. exact Hs.
Qed.
Lemma ram_bytes_take (l : list (Z * Z)) : forall p : nat, take (12 * p) (ram_bytes l) = ram_bytes (take p l).
Proof.
  induction l as [|[a v] l IH]; intros p; [rewrite take_nil; change (ram_bytes []) with (@nil ascii); apply take_nil|]. destruct p as [|p]; [reflexivity|].
  rewrite ram_bytes_cons. cbn [take]. rewrite ram_bytes_cons, app_assoc.
  assert (L : length (bytes_of_addr a ++ bytes_of_content v) = 12%nat) by (rewrite app_length; unfold bytes_of_addr, bytes_of_content; rewrite !le_bytes_length; reflexivity).
  rewrite take_app_ge by lia. rewrite L. replace (12 * S p - 12)%nat with (12 * p)%nat by lia. rewrite IH, <- app_assoc. reflexivity.
Qed.
Lemma foldl_insert_some (l : list (Z * Z)) : forall (m : gmap Z Z) (a v : Z), foldl (fun m kv => <[kv.1 := kv.2]> m) m l !! a = Some v ->
  (a, v) ∈ l \/ m !! a = Some v.
Proof.
  induction l as [|[b w] l IH]; intros m a v H; [right; exact H|]. cbn [foldl fst snd] in H. apply IH in H as [H|H]; [left; right; exact H|].
  apply lookup_insert_Some in H as [[-> ->]|[_ H]]; [left; left|right; exact H].
Qed.

(** A proper beginning of the text of a RAM: a subset of its patterns, or an undefined read. *)
Lemma dataToRam_cut iter m (r : str) : valid_iter iter -> valid_entries m -> r `prefix_of` ram_text iter m -> r <> [] ->
  dataToRam r = UB UBIndex \/ exists m', dataToRam r = Ok m' /\ m' ⊆ m.
Proof.
  intros Hi Hv Hr Hne. unfold ram_text in Hr.
  assert (Hpad : pad ∉ r).
  { eapply prefix_notin; [exact Hr|]. apply encode_no_pad. pose proof (ram_bytes_length (iter m)) as L. unfold len in L.
    replace (length (ram_bytes (iter m))) with (4 * length (iter m) * 3)%nat by lia. apply Nat.mod_mul. lia. }
  destruct (decide (len r mod 4 = 0)) as [H4|H4]; [|left; unfold dataToRam; rewrite decode_unsafe by auto; reflexivity].
  right. set (s := ram_bytes (iter m)) in *.
  assert (Hq : exists q : nat, length r = (4 * q)%nat).
  { exists (Z.to_nat (len r / 4)). pose proof (Z.div_mod (len r) 4 ltac:(lia)). pose proof (len_nonneg r). unfold len in *. lia. }
  destruct Hq as [q Hq]. pose proof (ram_bytes_length (iter m)) as L. fold s in L.
  assert (Lq : (3 * q <= length s)%nat).
  { pose proof (prefix_length _ _ Hr) as Hl. pose proof (encode_length4 s) as E4. rewrite L in E4.
    replace (12 * len (iter m) + 2) with (2 + 4 * len (iter m) * 3) in E4 by lia. rewrite Z.div_add in E4 by lia. change (2 / 3) with 0 in E4. unfold len in *. lia. }
  assert (Er : r = encode (take (3 * q) s)).
  { rewrite <- encode_take by exact Lq. rewrite <- Hq. destruct Hr as [t ->]. symmetry. apply take_app. }
  assert (Hq0 : (0 < q)%nat) by (destruct q; [|lia]; destruct r; [congruence|discriminate]).
  assert (Lt : length (take (3 * q) s) = (3 * q)%nat) by (rewrite take_length; lia).
  unfold dataToRam. rewrite Er, decode_encode by (intros E; rewrite E in Lt; cbn in Lt; lia). cbn [rbind].
  destruct (Z.eqb_spec (len (take (3 * q) s) mod 12) 0) as [H12|H12]; cbn [negb].
  2:{ exists ∅. split; [reflexivity|]. apply map_empty_subseteq. }
  assert (Hp : exists p : nat, (3 * q = 12 * p)%nat).
  { exists (Z.to_nat (len (take (3 * q) s) / 12)). pose proof (Z.div_mod (len (take (3 * q) s)) 12 ltac:(lia)). pose proof (len_nonneg (take (3 * q) s)). unfold len in *. lia. }
  destruct Hp as [p Hp]. unfold s in *. rewrite Hp, ram_bytes_take in *.
  assert (Hin : forall x, x ∈ take p (iter m) -> m !! x.1 = Some x.2).
  { intros [a v] Hx. assert ((a, v) ∈ iter m) as Hx' by (rewrite <- (take_drop p (iter m)); apply elem_of_app; left; exact Hx).
    rewrite (Hi m) in Hx'. apply elem_of_map_to_list in Hx'. exact Hx'. }
  rewrite blocks_spec.
  - eexists. split; [reflexivity|]. apply map_subseteq_spec. intros a v H. apply foldl_insert_some in H as [H|H]; [exact (Hin _ H)|rewrite lookup_empty in H; discriminate].
  - pose proof (ram_bytes_length (take p (iter m))). unfold len in *. lia.
  - apply Forall_forall. intros [a v] Hx. apply Hin in Hx. exact (Hv a v Hx).
Qed.

Lemma handle_of_dotless f (r : str) : "."%char ∉ r -> 6 <= len r <= INT_MAX ->
  handle_of_text f r = (let* m := dataToRam r in Ok (<[0 := m]> ∅)).
Proof.
  intros Hd Hl. unfold handle_of_text. rewrite has_suffix_long by (change (len ramdata_sufix) with 6; unfold W64, INT_MAX in *; lia).
  assert (bool_decide (drop (Z.to_nat (len r - len ramdata_sufix)) r = ramdata_sufix) = false) as ->.
  { apply bool_decide_eq_false. intros E. apply Hd. rewrite <- (take_drop (Z.to_nat (len r - len ramdata_sufix)) r). apply elem_of_app. right. rewrite E. apply ramdata_sufix_dot. }
  cbn [rbind]. cbn [setData_loop]. destruct (Z.ltb_spec 0 (len r)); [|lia].
  assert (F : find_char "." r 0 = npos).
  { change r with ([] ++ r) at 1. change 0 with (len (@nil ascii)). apply find_char_none; [change (len (@nil ascii)) with 0; cbn [app]; unfold W64, INT_MAX in *; lia|exact Hd]. }
  rewrite F. change (u32 npos) with 4294967295. change (u32 (4294967295 - 0)) with 4294967295.
  assert (substr r 0 4294967295 = Ok r) as ->.
  { change r with ([] ++ r) at 1. change 0 with (len (@nil ascii)). apply substr_rest; cbn [app]; [change (len (@nil ascii)) with 0; unfold W64, INT_MAX in *; lia|rewrite u64_id by (unfold W64; lia); unfold INT_MAX in *; lia]. }
  cbn [rbind]. destruct (dataToRam r) as [m| | |]; try reflexivity. cbn [rbind].
  change (Z.of_nat (size (∅ : gmap Z (gmap Z Z)))) with 0.
  destruct (length r) as [|n] eqn:E; [unfold len in *; lia|]. cbn [setData_loop]. destruct (Z.ltb_spec 4294967295 (len r)); [unfold INT_MAX in *; lia|reflexivity].
Qed.

(** The RAM that a cut field gives. *)
Definition part_of (r' r : ram) : Prop :=
  r_addresses r' = r_addresses r /\ r_ignoreZero r' = r_ignoreZero r /\ r_base r' = r_base r /\ r_positions r' ⊆ r_positions r.
Lemma has_suffix_short (data suf : str) : len data < len suf -> len suf < W64 -> has_suffix data suf = Throw EOutOfRange.
Proof.
  intros H Hs. pose proof (len_nonneg data). unfold has_suffix, substr. assert (u64 (len data - len suf) = len data - len suf + W64) as ->.
  { unfold u64. rewrite <- (Z.mod_add _ 1 W64) by (unfold W64; lia). rewrite Z.mul_1_l. apply Z.mod_small. unfold W64 in *. lia. }
  destruct (Z.ltb_spec (len data) (len data - len suf + W64)); [reflexivity|lia].
Qed.
Lemma ram_of_parts_cut iter f iz base r (t : str) : valid_iter iter -> storable_ram iz base r -> t `prefix_of` ram_getData iter r ->
  len (ram_getData iter r) <= INT_MAX ->
  ram_of_parts f (rbase_of iz base) (jints (r_addresses r)) t = Throw EOutOfRange \/
  ram_of_parts f (rbase_of iz base) (jints (r_addresses r)) t = UB UBIndex \/
  exists r', ram_of_parts f (rbase_of iz base) (jints (r_addresses r)) t = Ok r' /\ part_of r' r.
Proof.
  intros Hi (Hz & Hb & H2 & Hib & Hw & Ha & Hv & Hne) Ht Hl.
  assert (Htl : len t <= INT_MAX) by (pose proof (prefix_length _ _ Ht); unfold len in *; lia).
  assert (Hd : "."%char ∉ t) by (eapply prefix_notin; [exact Ht|apply ram_text_no_dot]).
  unfold ram_of_parts, ram_of_json.
  destruct (part_fields (jints (r_addresses r)) t iz base) as (-> & -> & -> & ->). cbn [rbind jget_bool].
  cbn [jget_int rbind]. rewrite s32_id by exact Hib. rewrite jget_ints_jints by exact Ha. cbn [rbind].
  pose proof (width_64 base _ H2 (len_nonneg _) Hw) as H64. pose proof (len_nonneg (r_addresses r)).
  rewrite s32_id by (unfold INT_MIN, INT_MAX; lia). rewrite checkLimit_spec by (unfold INT_MAX; lia).
  assert ((if base =? 2 then if len (r_addresses r) <=? 64 then Ok tt else Throw limit_exn
           else if base ^ len (r_addresses r) <=? LL_MAX then Ok tt else UB UBOverflow) = Ok tt) as ->.
  { unfold width_ok in Hw. destruct (base =? 2); [destruct (Z.leb_spec (len (r_addresses r)) 64); [reflexivity|lia]|].
    destruct (Z.leb_spec (base ^ len (r_addresses r)) LL_MAX); [reflexivity|lia]. }
  cbn [rbind jget_str]. destruct (Z.le_gt_cases 6 (len t)) as [H6|H6].
  - rewrite handle_of_dotless by (auto; lia).
    destruct (dataToRam_cut iter (r_positions r) t Hi Hv Ht) as [->|(m' & -> & Hm)].
    + intros ->. change (len (@nil ascii)) with 0 in H6. lia.
    + right. left. reflexivity.
    + right. right. cbn [rbind]. unfold handle_get_ram, touch. rewrite lookup_insert. cbn [fst]. eexists. split; [reflexivity|].
      split; [reflexivity|]. cbn. split; [congruence|]. split; [congruence|exact Hm].
  - left. unfold handle_of_text. rewrite has_suffix_short; [reflexivity|change (len ramdata_sufix) with 6; lia|reflexivity].
Qed.

Lemma rams_of_file_cut iter f iz base : valid_iter iter -> forall (rs : list ram) (n : nat) (r : ram) (t : str), rs !! n = Some r ->
  Forall (storable_ram iz base) rs -> len (join_dots (texts iter rs)) <= INT_MAX -> "."%char ∉ t ->
  rams_of_file f (rbase_of iz base) (jints <$> (r_addresses <$> rs)) (join_dots (texts iter (take n rs) ++ [t])) false =
    (let* r' := ram_of_parts f (rbase_of iz base) (jints (r_addresses r)) t in Ok (take n rs ++ [r'])).
Proof.
  intros Hi. induction rs as [|x rs IH]; intros n r t Hn Hall Hlen Ht; [discriminate|]. unfold texts in *.
  apply Forall_cons in Hall as [Hx Hall]. rewrite !fmap_cons in *. cbn [rams_of_file].
  assert (Hd : "."%char ∉ ram_getData iter x) by apply ram_text_no_dot.
  destruct n as [|n].
  - cbn in Hn. injection Hn as ->. cbn [take fmap list_fmap app join_dots]. rewrite getline_end by exact Ht.
    destruct (ram_of_parts _ _ _ _) as [r'| | |]; try reflexivity. cbn [rbind].
    destruct (jints <$> (r_addresses <$> rs)); reflexivity.
  - cbn in Hn. cbn [take]. rewrite fmap_cons. cbn [app].
    destruct ((ram_getData iter <$> take n rs) ++ [t]) as [|y ys] eqn:E; [destruct (ram_getData iter <$> take n rs); discriminate|].
    rewrite join_cons, getline_app by exact Hd. rewrite <- E.
    assert (Hlen' : len (ram_getData iter x) <= INT_MAX /\ len (join_dots (ram_getData iter <$> rs)) <= INT_MAX).
    { clear -Hlen. destruct rs as [|r2 rs]; [cbn [fmap list_fmap join_dots] in *; split; [exact Hlen|change (len (@nil ascii)) with 0; unfold INT_MAX; lia]|].
      rewrite !fmap_cons in *. rewrite join_cons, len_app, len_cons in Hlen. pose proof (len_nonneg (ram_getData iter x)).
      pose proof (len_nonneg (join_dots (ram_getData iter r2 :: (ram_getData iter <$> rs)))). lia. }
    rewrite (ram_of_parts_ok iter) by (auto; apply Hlen'). cbn [rbind].
    rewrite (IH n r t Hn Hall (proj2 Hlen') Ht). destruct (ram_of_parts _ _ (jints (r_addresses r)) _); reflexivity.
Qed.

Lemma disc_json_cut_nf k iter rnd f d path : utf8_ok (path ++ rnd ++ ramdata_sufix) = true ->
  disc_json_cut k iter rnd f d path =
    (Ok (json_value d (path ++ rnd ++ ramdata_sufix)), fs_append f (path ++ rnd ++ ramdata_sufix) (take k (ramsdata_file iter (d_rams d)))).
Proof.
  intros Hu. pose proof (disc_json_nf iter rnd f d true path Hu) as E. unfold disc_json, disc_json_value, getRAMsData in E. cbn [fst snd] in E.
  apply (f_equal fst) in E. cbn [fst] in E. unfold disc_json_cut, getRAMsData_cut, fs_append_cut. f_equal.
  rewrite <- E. destruct (disc_config d true) as [c| | |]; try reflexivity. cbn [rbind].
  destruct (jset (merge_ram_config d c) _ _) as [c2| | |]; reflexivity.
Qed.

Lemma getVote_part r' r im v : part_of r' r -> getVote r im = Ok v -> exists v', getVote r' im = Ok v' /\ (v' = 0 \/ v' = v).
Proof.
  intros (H1 & H2 & H3 & H4). unfold getVote.
  assert (getIndex r' im = getIndex r im) as -> by (unfold getIndex; rewrite H1, H3; reflexivity).
  destruct (getIndex r im) as [i| | |]; try discriminate. cbn [rbind]. rewrite H2. destruct (r_ignoreZero r && (i =? 0)).
  - intros E. exists v. auto.
  - intros E. destruct (r_positions r' !! i) as [w|] eqn:Hw; [|exists 0; auto]. eapply lookup_weaken in Hw; [|exact H4]. rewrite Hw in E.
    injection E as ->. exists v. auto.
Qed.
Lemma rmapM_take {A B} (g : A -> res B) (l : list A) (v : list B) (n : nat) : rmapM g l = Ok v -> rmapM g (take n l) = Ok (take n v).
Proof.
  revert v n. induction l as [|x l IH]; intros v n H; cbn [rmapM] in H; [injection H as <-; rewrite !take_nil; reflexivity|].
  destruct (g x) as [y| | |] eqn:E; try discriminate. cbn [rbind] in H. destruct (rmapM g l) as [w| | |] eqn:F; try discriminate. cbn [rbind] in H. injection H as <-.
  destruct n as [|n]; [reflexivity|]. cbn [take rmapM]. rewrite E. cbn [rbind]. rewrite (IH w n eq_refl). reflexivity.
Qed.
Lemma rmapM_app {A B} (g : A -> res B) (l1 l2 : list A) (v1 v2 : list B) : rmapM g l1 = Ok v1 -> rmapM g l2 = Ok v2 -> rmapM g (l1 ++ l2) = Ok (v1 ++ v2).
Proof.
  revert v1. induction l1 as [|x l IH]; intros v1 H1 H2; cbn [rmapM] in H1; [injection H1 as <-; exact H2|].
  destruct (g x) as [y| | |] eqn:E; try discriminate. cbn [rbind] in H1. destruct (rmapM g l) as [w| | |] eqn:F; try discriminate. cbn [rbind] in H1. injection H1 as <-.
  cbn [app rmapM]. rewrite E. cbn [rbind]. rewrite (IH w eq_refl H2). reflexivity.
Qed.
Lemma rmapM_lookup {A B} (g : A -> res B) (l : list A) (v : list B) (n : nat) (x : A) : rmapM g l = Ok v -> l !! n = Some x -> exists y, v !! n = Some y /\ g x = Ok y.
Proof.
  revert v n. induction l as [|z l IH]; intros v n H Hn; [discriminate|]. cbn [rmapM] in H.
  destruct (g z) as [y| | |] eqn:E; try discriminate. cbn [rbind] in H. destruct (rmapM g l) as [w| | |] eqn:F; try discriminate. cbn [rbind] in H. injection H as <-.
  destruct n as [|n]; cbn in *; [injection Hn as ->; eauto|]. apply (IH w n eq_refl Hn).
Qed.

Lemma disc_cut k iter rnd f path d : valid_iter iter -> storable iter d ->
  let name := path ++ rnd ++ ramdata_sufix in
  utf8_ok name = true -> len name < W64 -> fs_writable f name = true -> fs_read f name = None ->
  exists j f' n, disc_json_cut k iter rnd f d path = (Ok j, f') /\ whole_items ram_size (Z.of_nat k) (d_rams d) n /\
    match disc_of_json f' j with
    | Ok d' => d_entrySize d' = d_entrySize d /\ d_count d' = d_count d /\
        (d_rams d' = take n (d_rams d) \/ exists r r', d_rams d !! n = Some r /\ part_of r' r /\ d_rams d' = take n (d_rams d) ++ [r'])
    | Throw e => (n < length (d_rams d))%nat /\ e = EOutOfRange
    | UB u => (n < length (d_rams d))%nat /\ u = UBIndex
    | Hang => False
    end.
Proof.
  intros Hi Hs name Hu Hn Hw Hr. destruct (storable_head iter d Hs) as (iz & base & Hall & Hh). destruct Hs as (He & Hc & Hne & _ & Hl).
  rewrite (disc_json_cut_nf k iter rnd f d path Hu). fold name. rewrite file_join.
  assert (Hsz : Forall (fun r => len (ram_getData iter r) = ram_size r) (d_rams d)) by (apply Forall_true; intros r; apply ram_text_size, Hi).
  destruct (cut_join (texts iter (d_rams d))) with (k := k) as (n & t & s & E & Ht & Et & Hcase); [unfold texts; destruct (d_rams d); [congruence|discriminate]|].
  pose proof E as E'. unfold texts in E'. rewrite list_lookup_fmap in E'. destruct (d_rams d !! n) as [r|] eqn:Er; [|discriminate]. cbn in E'. injection E' as <-.
  pose proof (lookup_lt_Some _ _ _ Er) as Hlt.
  assert (Hst : storable_ram iz base r) by (rewrite Forall_lookup in Hall; exact (Hall n r Er)).
  assert (Hlr : len (ram_getData iter r) <= INT_MAX).
  { assert (ram_getData iter r ∈ texts iter (d_rams d)) as Hin by (apply elem_of_list_lookup; exists n; exact E). pose proof (join_len_ge _ _ Hin). lia. }
  eexists _, _, (if decide (t = ram_getData iter r) then S n else n). split; [reflexivity|]. split.
  { destruct Hcase as [[Hc1 W]|[Hc1 W]]; (destruct (decide _) as [Hd|Hd]; [|]); try contradiction; eapply whole_items_of; eassumption. }
  rewrite (disc_of_value _ d name iz base He Hc Hh). unfold disc_mapping.
  assert (En : name = (path ++ rnd) ++ ramdata_sufix) by (unfold name; rewrite <- app_assoc; reflexivity).
  assert (Hset : setRAMsData (fs_append f name (take k (join_dots (texts iter (d_rams d))))) (jintss (r_addresses <$> d_rams d)) (rbase_of iz base) name =
    (let* r' := ram_of_parts (fs_append f name (take k (join_dots (texts iter (d_rams d))))) (rbase_of iz base) (jints (r_addresses r)) t in Ok (take n (d_rams d) ++ [r']))).
  { unfold setRAMsData. assert (has_suffix name ramdata_sufix = Ok true) as -> by (rewrite En; apply has_suffix_app; rewrite <- En; exact Hn). cbn [rbind].
    assert (fs_read (fs_append f name (take k (join_dots (texts iter (d_rams d))))) name = Some (take k (join_dots (texts iter (d_rams d))))) as Hread.
    { unfold fs_append. rewrite Hw. unfold fs_read in *. cbn [fs_files]. rewrite lookup_insert, Hr. reflexivity. }
    rewrite Hread, Et. rewrite jvalues_jintss. replace (take n (texts iter (d_rams d))) with (texts iter (take n (d_rams d))) by (unfold texts; apply fmap_take).
    apply (rams_of_file_cut iter); auto. eapply prefix_notin; [exact Ht|apply ram_text_no_dot]. }
  rewrite Hset. generalize (fs_append f name (take k (join_dots (texts iter (d_rams d))))) as f'. intros f'.
  destruct (decide (t = ram_getData iter r)) as [->|Hne2].
  - rewrite (ram_of_parts_ok iter) by auto. cbn [rbind]. cbn [d_entrySize d_count d_rams]. split; [reflexivity|]. split; [reflexivity|]. left.
    symmetry. apply take_S_r. exact Er.
  - destruct (ram_of_parts_cut iter f' iz base r t Hi Hst Ht Hlr) as [->|[->|(r' & -> & Hp)]]; cbn [rbind].
    + split; [exact Hlt|reflexivity].
    + split; [exact Hlt|reflexivity].
    + cbn [d_entrySize d_count d_rams]. split; [reflexivity|]. split; [reflexivity|]. right. exists r, r'. auto.
Qed.

(** What classification answers with what is left. *)
Lemma votes_left d d' n im votes : d_entrySize d' = d_entrySize d ->
  (d_rams d' = take n (d_rams d) \/ exists r r', d_rams d !! n = Some r /\ part_of r' r /\ d_rams d' = take n (d_rams d) ++ [r']) ->
  disc_classify d im = Ok votes ->
  exists more, disc_classify d' im = Ok (take n votes ++ more) /\ (more = [] \/ more = [0] \/ exists v, more = [v] /\ votes !! n = Some v).
Proof.
  intros He Hr. unfold disc_classify. rewrite He. destruct (checkEntrySize _ _); try discriminate. cbn [rbind]. intros E.
  pose proof (rmapM_take _ _ _ n E) as Ht. destruct Hr as [->|(r & r' & Hn & Hp & ->)].
  - exists []. rewrite Ht. rewrite app_nil_r. auto.
  - destruct (rmapM_lookup _ _ _ _ _ E Hn) as (v & Hv & Hg). destruct (getVote_part r' r im v Hp Hg) as (v' & Hg' & Hor). exists [v']. split.
    + apply rmapM_app; [exact Ht|]. cbn [rmapM]. rewrite Hg'. reflexivity.
    + destruct Hor as [->| ->]; [auto|]. right. right. exists v. auto.
Qed.
