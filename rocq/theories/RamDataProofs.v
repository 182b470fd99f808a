From Verif Require Import Prelude Bytes Base64 Utils BinInput Ram Json Fs RamData.
From Verif Require Import Base64Proofs BytesProofs TextProofs.

(** A hash map that the code can hold: addresses are 64-bit unsigned, contents are ints. *)
Definition valid_entries (m : gmap Z Z) : Prop :=
  forall a v, m !! a = Some v -> 0 <= a < W64 /\ INT_MIN <= v <= INT_MAX.
(** What an unordered_map iteration is allowed to be. *)
Definition valid_iter (iter : iteration) : Prop := forall m, iter m ≡ₚ map_to_list m.

Lemma ram_bytes_cons a v l : ram_bytes ((a, v) :: l) = bytes_of_addr a ++ bytes_of_content v ++ ram_bytes l.
Proof. unfold ram_bytes. cbn [fmap list_fmap List.concat fst snd]. rewrite <- app_assoc. reflexivity. Qed.

Lemma ram_bytes_length l : len (ram_bytes l) = 12 * len l.
Proof.
  induction l as [|[a v] l IH]; [reflexivity|].
  rewrite ram_bytes_cons, !len_app, IH, len_cons. unfold bytes_of_addr, bytes_of_content, len.
  rewrite !le_bytes_length. lia.
Qed.

Lemma blocks_step fuel a v rest m : 0 <= a < W64 -> INT_MIN <= v <= INT_MAX ->
  blocks_fuel (S fuel) (bytes_of_addr a ++ bytes_of_content v ++ rest) m =
  blocks_fuel fuel rest (<[a := v]> m).
Proof.
  intros Ha Hv.
  assert (forall s, length s = 8%nat -> forall t, length t = 4%nat ->
     blocks_fuel (S fuel) (s ++ t ++ rest) m =
     blocks_fuel fuel rest (<[addr_of_bytes s := content_of_bytes t]> m)) as H.
  { intros s Hs t Ht.
    do 8 (destruct s as [|? s]; [discriminate|]). destruct s; [|discriminate].
    do 4 (destruct t as [|? t]; [discriminate|]). destruct t; [|discriminate].
    cbn [blocks_fuel app]. cbn [take drop]. reflexivity. }
  rewrite H by apply le_bytes_length.
  rewrite addr_bytes_roundtrip, content_bytes_roundtrip by assumption. reflexivity.
Qed.

Lemma blocks_spec l : forall fuel m, (length l <= fuel)%nat ->
  Forall (fun kv => 0 <= kv.1 < W64 /\ INT_MIN <= kv.2 <= INT_MAX) l ->
  blocks_fuel fuel (ram_bytes l) m = foldl (fun m kv => <[kv.1 := kv.2]> m) m l.
Proof.
  induction l as [|[a v] l IH]; intros fuel m Hf Hall.
  - destruct fuel; reflexivity.
  - inversion Hall as [|? ? [Ha Hv] Hl]; subst. cbn [length] in Hf. destruct fuel as [|fuel]; [lia|].
    rewrite ram_bytes_cons, blocks_step by assumption. cbn [foldl]. apply IH; [lia|exact Hl].
Qed.

Lemma foldl_insert_map l (m : gmap Z Z) : l ≡ₚ map_to_list m ->
  foldl (fun m kv => <[kv.1 := kv.2]> m) ∅ l = m.
Proof.
  intros Hp.
  assert (foldl (fun m kv => <[kv.1 := kv.2]> m) ∅ l = list_to_map (M := gmap Z Z) (rev l)) as ->.
  { unfold list_to_map. rewrite <- (rev_involutive l) at 1. generalize (rev l) as r. clear.
    intros r. induction r as [|x r IH]; [reflexivity|]. cbn [rev foldr]. rewrite foldl_app, IH. reflexivity. }
  assert (rev l ≡ₚ map_to_list m) as Hp' by (rewrite <- Permutation_rev; exact Hp).
  rewrite (list_to_map_proper (rev l) (map_to_list m)).
  - apply list_to_map_to_list.
  - rewrite Hp'. apply NoDup_fst_map_to_list.
  - exact Hp'.
Qed.

Lemma iter_nil iter m : valid_iter iter -> m <> ∅ -> iter m <> [].
Proof.
  intros Hi Hne E. specialize (Hi m). rewrite E in Hi. apply Permutation_nil in Hi.
  apply Hne. apply map_to_list_empty_iff. exact Hi.
Qed.
Lemma iter_len iter m : valid_iter iter -> len (iter m) = Z.of_nat (size m).
Proof. intros Hi. unfold len. rewrite (Permutation_length (Hi m)). reflexivity. Qed.

Lemma ram_text_no_dot iter m : "."%char ∉ ram_text iter m.
Proof. apply encode_no_dot. Qed.

Lemma ram_text_len iter m : valid_iter iter -> m <> ∅ -> 16 <= len (ram_text iter m).
Proof.
  intros Hi Hne. unfold ram_text. rewrite encode_length4, ram_bytes_length.
  pose proof (iter_nil iter m Hi Hne). destruct (iter m) as [|x l]; [congruence|].
  rewrite len_cons. pose proof (len_nonneg l).
  pose proof (Z.div_le_mono 12 (12 * (1 + len l) + 2) 3). change (12 / 3) with 4 in *. lia.
Qed.

Theorem dataToRam_text iter m : valid_iter iter -> valid_entries m -> m <> ∅ ->
  dataToRam (ram_text iter m) = Ok m.
Proof.
  intros Hi Hv Hne. unfold dataToRam, ram_text.
  assert (ram_bytes (iter m) <> []) as Hb.
  { pose proof (iter_nil iter m Hi Hne). destruct (iter m) as [|[a v] l]; [congruence|].
    intros E. apply (f_equal len) in E. rewrite ram_bytes_length, len_cons, len_nil in E.
    pose proof (len_nonneg l). lia. }
  rewrite decode_encode by exact Hb. cbn [rbind].
  rewrite ram_bytes_length, Z.mul_comm, Z.mod_mul by lia. cbn [Z.eqb negb].
  rewrite blocks_spec.
  - f_equal. apply foldl_insert_map, Hi.
  - pose proof (ram_bytes_length (iter m)). unfold len in *. lia.
  - apply Forall_forall. intros [a v] Hin. rewrite (Hi m) in Hin.
    apply elem_of_map_to_list in Hin. apply (Hv a v Hin).
Qed.

(** ** Handles as sequences of RAMs *)
Definition hrepr (h : handle) (ms : list (gmap Z Z)) : Prop :=
  forall i, h !! i = if 0 <=? i then ms !! Z.to_nat i else None.

Lemma hrepr_size ms : forall h, hrepr h ms -> size h = length ms.
Proof.
  induction ms as [|m ms IH] using rev_ind; intros h Hr.
  - assert (h = ∅) as ->; [|apply map_size_empty]. apply map_eq. intros i. rewrite Hr, lookup_empty.
    destruct (0 <=? i); reflexivity.
  - set (k := Z.of_nat (length ms)).
    assert (h !! k = Some m) as Hk.
    { rewrite Hr. unfold k. destruct (Z.leb_spec 0 (Z.of_nat (length ms))); [|lia].
      rewrite Nat2Z.id. apply list_lookup_middle. reflexivity. }
    rewrite <- (insert_delete h k m Hk), map_size_insert_None by apply lookup_delete.
    rewrite (IH (delete k h)).
    + rewrite app_length. cbn. lia.
    + intros i. destruct (decide (i = k)) as [->|Hne].
      * rewrite lookup_delete. unfold k. destruct (0 <=? Z.of_nat (length ms)); [|reflexivity].
        rewrite Nat2Z.id. symmetry. apply lookup_ge_None. lia.
      * rewrite lookup_delete_ne by congruence. rewrite Hr. destruct (Z.leb_spec 0 i); [|reflexivity].
        unfold k in Hne. destruct (decide (Z.to_nat i < length ms)%nat).
        -- apply lookup_app_l. assumption.
        -- rewrite lookup_app_r by lia. rewrite (lookup_ge_None_2 ms) by lia.
           apply lookup_ge_None. cbn. lia.
Qed.

Lemma hrepr_push h ms m : hrepr h ms -> hrepr (<[Z.of_nat (size h) := m]> h) (ms ++ [m]).
Proof.
  intros Hr i. rewrite (hrepr_size ms h Hr). destruct (decide (i = Z.of_nat (length ms))) as [->|Hne].
  - rewrite lookup_insert. destruct (Z.leb_spec 0 (Z.of_nat (length ms))); [|lia].
    rewrite Nat2Z.id. symmetry. apply list_lookup_middle. reflexivity.
  - rewrite lookup_insert_ne by congruence. rewrite Hr. destruct (Z.leb_spec 0 i); [|reflexivity].
    destruct (decide (Z.to_nat i < length ms)%nat).
    + symmetry. apply lookup_app_l. assumption.
    + rewrite lookup_app_r by lia. rewrite (lookup_ge_None_2 ms) by lia.
      symmetry. apply lookup_ge_None. cbn. lia.
Qed.

Lemma hrepr_unique h h' ms : hrepr h ms -> hrepr h' ms -> h = h'.
Proof. intros H1 H2. apply map_eq. intros i. rewrite H1, H2. reflexivity. Qed.

Lemma hrepr_nil : hrepr ∅ [].
Proof. intros i. rewrite lookup_empty. destruct (0 <=? i); reflexivity. Qed.

Lemma hrepr_touch h ms i : hrepr h ms -> 0 <= i < len ms ->
  exists m, ms !! Z.to_nat i = Some m /\ touch h i = (m, h).
Proof.
  intros Hr Hi. unfold len in Hi. destruct (lookup_lt_is_Some_2 ms (Z.to_nat i)) as [m Hm]; [lia|].
  exists m. split; [exact Hm|]. unfold touch. rewrite Hr. destruct (Z.leb_spec 0 i); [|lia]. rewrite Hm. reflexivity.
Qed.

Lemma join_head a rest : join_dots (a :: rest) = a ++ (match rest with [] => [] | _ => "."%char :: join_dots rest end).
Proof. destruct rest; [symmetry; apply app_nil_r|reflexivity]. Qed.

(** data() *)
Lemma handle_data_loop_spec iter h ms : hrepr h ms -> len ms <= INT_MAX ->
  forall rest pre fuel out, ms = pre ++ rest -> (length rest <= fuel)%nat ->
  handle_data_loop fuel iter h (len pre) out =
  Ok (out ++ match pre, rest with
             | [], _ => join_dots (ram_text iter <$> rest)
             | _, [] => []
             | _, _ => "."%char :: join_dots (ram_text iter <$> rest)
             end, h).
Proof.
  intros Hr Hmax. induction rest as [|m rest IH]; intros pre fuel out Hms Hf.
  - assert (handle_data_loop fuel iter h (len pre) out = Ok (out, h)) as ->.
    { destruct fuel; cbn [handle_data_loop]; rewrite (hrepr_size ms h Hr), Hms, app_nil_r;
      destruct (Z.ltb_spec (len pre) (Z.of_nat (length pre))); unfold len in *; try lia; reflexivity. }
    destruct pre; cbn; rewrite app_nil_r; reflexivity.
  - destruct fuel as [|fuel]; [cbn in Hf; lia|]. cbn [handle_data_loop].
    rewrite (hrepr_size ms h Hr). pose proof (len_nonneg pre).
    assert (len pre < len ms) as Hlt by (rewrite Hms, len_app, len_cons; pose proof (len_nonneg rest); lia).
    destruct (Z.ltb_spec (len pre) (Z.of_nat (length ms))); [|unfold len in *; lia].
    rewrite s32_id by (unfold INT_MIN; lia).
    unfold handle_data_ram. destruct (hrepr_touch h ms (len pre) Hr ltac:(lia)) as (m' & Hm' & ->).
    assert (m' = m) as ->.
    { rewrite Hms in Hm'. unfold len in Hm'. rewrite Nat2Z.id in Hm'. rewrite list_lookup_middle in Hm' by reflexivity. congruence. }
    assert (u32 (len pre + 1) = len (pre ++ [m])) as ->.
    { rewrite len_app, len_cons, len_nil. unfold u32, W32, INT_MAX in *. apply Z.mod_small. lia. }
    rewrite IH; [|rewrite <- app_assoc; exact Hms|cbn in Hf; lia].
    f_equal. f_equal. rewrite <- app_assoc. f_equal.
    destruct pre as [|p pre].
    + cbn [len app]. change (len (@nil (gmap Z Z))) with 0. cbn [Z.eqb app fmap list_fmap].
      rewrite join_head. destruct rest; reflexivity.
    + destruct (Z.eqb_spec (len (p :: pre)) 0) as [E|_]; [rewrite len_cons in E; pose proof (len_nonneg pre); lia|].
      cbn [fmap list_fmap app]. rewrite join_head. destruct rest; reflexivity.
Qed.

Lemma handle_data_spec iter h ms fuel : hrepr h ms -> len ms <= INT_MAX -> (length ms <= fuel)%nat ->
  handle_data fuel iter h = Ok (join_dots (ram_text iter <$> ms), h).
Proof.
  intros Hr Hm Hf. unfold handle_data.
  exact (handle_data_loop_spec iter h ms Hr Hm ms [] fuel [] eq_refl Hf).
Qed.

(** reading back *)
Lemma has_suffix_long data suf : len suf <= len data < W64 ->
  has_suffix data suf = Ok (bool_decide (drop (Z.to_nat (len data - len suf)) data = suf)).
Proof.
  intros H. unfold has_suffix.
  assert (data = take (Z.to_nat (len data - len suf)) data ++ drop (Z.to_nat (len data - len suf)) data) as E by (symmetry; apply take_drop).
  set (p := take _ data) in E. set (e := drop (Z.to_nat (len data - len suf)) data) in *.
  pose proof (len_nonneg suf).
  assert (len p = len data - len suf) as Hp by (unfold p, len in *; rewrite take_length; lia).
  assert (len e = len suf) as He.
  { apply (f_equal len) in E. rewrite len_app in E. lia. }
  rewrite E at 1. rewrite <- Hp, <- He.
  replace (p ++ e) with (p ++ e ++ []) by (rewrite app_nil_r; reflexivity).
  rewrite substr_mid by (rewrite app_nil_r, <- E; lia). reflexivity.
Qed.

Lemma drop_app_long {A} (l1 l2 : list A) n : (length l1 <= n)%nat -> drop n (l1 ++ l2) = drop (n - length l1) l2.
Proof. intros H. rewrite drop_app_ge by exact H. reflexivity. Qed.

Lemma has_suffix_join segs suf :
  segs <> [] -> Forall (fun s => "."%char ∉ s /\ len suf <= len s) segs -> "."%char ∈ suf ->
  len (join_dots segs) < W64 ->
  has_suffix (join_dots segs) suf = Ok false.
Proof.
  intros Hne Hall Hdot Hlen. destruct segs as [|x l] using rev_ind; [congruence|]. clear IHl.
  apply Forall_app in Hall as [_ Hx]. inversion Hx as [|? ? [Hx1 Hx2] _]; subst.
  pose proof (join_len_ge (l ++ [x]) x ltac:(apply elem_of_app; right; left)).
  rewrite has_suffix_long by lia. f_equal. apply bool_decide_eq_false. intros E.
  assert (exists p, join_dots (l ++ [x]) = p ++ x) as [p Hp].
  { destruct l; [exists []; reflexivity|]. rewrite join_snoc by congruence.
    exists (join_dots (l :: l0) ++ ["."%char]). rewrite <- app_assoc. reflexivity. }
  rewrite Hp in E. rewrite drop_app_long in E.
  - rewrite <- E in Hdot. apply Hx1. rewrite <- (take_drop (Z.to_nat (len (p ++ x) - len suf) - length p) x). apply elem_of_app. right. exact Hdot.
  - rewrite len_app. unfold len in *. lia.
Qed.

Lemma ramdata_sufix_dot : "."%char ∈ ramdata_sufix.
Proof. left. Qed.

Lemma push_fields_spec iter ms : valid_iter iter -> Forall (fun m => valid_entries m /\ m <> ∅) ms ->
  forall h ms0, hrepr h ms0 -> exists h', push_fields (ram_text iter <$> ms) h = Ok h' /\ hrepr h' (ms0 ++ ms).
Proof.
  intros Hi Hall. induction Hall as [|m ms [Hv Hne] Hall IH]; intros h ms0 Hr.
  - exists h. rewrite app_nil_r. auto.
  - cbn [fmap list_fmap push_fields]. rewrite dataToRam_text by assumption. cbn [rbind].
    destruct (IH _ _ (hrepr_push h ms0 m Hr)) as (h' & -> & Hr'). exists h'. split; [reflexivity|].
    rewrite <- app_assoc in Hr'. exact Hr'.
Qed.

Lemma setData_loop_spec iter ms : valid_iter iter -> Forall (fun m => valid_entries m /\ m <> ∅) ms -> ms <> [] ->
  forall pre h ms0 fuel s found, hrepr h ms0 -> s = pre ++ join_dots (ram_text iter <$> ms) ->
  len s <= INT_MAX -> (length ms < fuel)%nat -> found < len s ->
  exists h', setData_loop fuel s (len pre) found h = Ok h' /\ hrepr h' (ms0 ++ ms).
Proof.
  intros Hi Hall Hne. induction Hall as [|m ms [Hv Hm] Hall IH]; [congruence|].
  intros pre h ms0 fuel s found Hr Hs Hmax Hf Hfound.
  destruct fuel as [|fuel]; [cbn in Hf; lia|]. cbn [setData_loop].
  destruct (Z.ltb_spec found (len s)); [|lia].
  pose proof (ram_text_no_dot iter m) as Hnd. pose proof (ram_text_len iter m Hi Hm) as Hl16.
  pose proof (len_nonneg pre) as Hpre.
  destruct ms as [|m2 ms].
  - cbn [fmap list_fmap join_dots] in Hs. subst s. rewrite len_app in *.
    rewrite find_char_none by (auto; unfold W64, INT_MAX in *; lia).
    change (u32 npos) with 4294967295.
    rewrite substr_rest.
    2:{ rewrite len_app. unfold W64, INT_MAX in *; lia. }
    2:{ rewrite len_app. rewrite u64_id.
        - unfold u32, W32, INT_MAX in *. rewrite Z.mod_small by lia. lia.
        - unfold u32. pose proof (Z.mod_pos_bound (4294967295 - len pre) W32 ltac:(reflexivity)). unfold W32, W64 in *. lia. }
    cbn [rbind]. rewrite dataToRam_text by assumption. cbn [rbind].
    destruct fuel as [|fuel]; [cbn in Hf; lia|]. cbn [setData_loop]. rewrite len_app.
    destruct (Z.ltb_spec 4294967295 (len pre + len (ram_text iter m))); [unfold INT_MAX in *; lia|].
    eexists. split; [reflexivity|]. apply hrepr_push, Hr.
  - cbn [fmap list_fmap] in Hs. rewrite join_cons in Hs. 
    assert (len pre + len (ram_text iter m) + 1 <= len s) as Hb.
    { rewrite Hs, !len_app, len_cons. pose proof (len_nonneg (join_dots (ram_text iter m2 :: (ram_text iter <$> ms)))). lia. }
    assert (find_char "." s (len pre) = len pre + len (ram_text iter m)) as ->.
    { rewrite Hs at 1. apply find_char_app; [unfold W64, INT_MAX in *; lia|exact Hnd]. }
    assert (u32 (len pre + len (ram_text iter m)) = len pre + len (ram_text iter m)) as ->.
    { unfold u32, W32, INT_MAX in *. apply Z.mod_small. lia. }
    replace (len pre + len (ram_text iter m) - len pre) with (len (ram_text iter m)) by lia.
    assert (u32 (len (ram_text iter m)) = len (ram_text iter m)) as ->.
    { unfold u32, W32, INT_MAX in *. apply Z.mod_small. lia. }
    assert (substr s (len pre) (len (ram_text iter m)) = Ok (ram_text iter m)) as ->.
    { rewrite Hs at 1. apply substr_mid. rewrite <- Hs. unfold W64, INT_MAX in *; lia. }
    cbn [rbind].
    rewrite dataToRam_text by assumption. cbn [rbind].
    rewrite s32_id by (unfold INT_MIN, INT_MAX in *; lia).
    destruct (IH ltac:(congruence) (pre ++ ram_text iter m ++ ["."%char]) _ (ms0 ++ [m]) fuel s (len pre + len (ram_text iter m)) (hrepr_push h ms0 m Hr)) as (h' & Heq & Hr').
    + rewrite Hs, <- !app_assoc. reflexivity.
    + exact Hmax.
    + cbn in *. lia.
    + lia.
    + rewrite !len_app, len_cons, len_nil in Heq.
      replace (len pre + (len (ram_text iter m) + (1 + 0))) with (len pre + len (ram_text iter m) + 1) in Heq by lia.
      exists h'. split; [exact Heq|]. rewrite <- app_assoc in Hr'. exact Hr'.
Qed.

Theorem handle_text_roundtrip iter f h ms : valid_iter iter -> hrepr h ms -> ms <> [] ->
  Forall (fun m => valid_entries m /\ m <> ∅) ms ->
  len (join_dots (ram_text iter <$> ms)) <= INT_MAX ->
  handle_of_text f (join_dots (ram_text iter <$> ms)) = Ok h.
Proof.
  intros Hi Hr Hne Hall Hlen. unfold handle_of_text. rewrite has_suffix_join.
  - cbn [rbind].
    destruct (setData_loop_spec iter ms Hi Hall Hne [] ∅ [] (S (length (join_dots (ram_text iter <$> ms))))
                (join_dots (ram_text iter <$> ms)) 0 hrepr_nil eq_refl Hlen) as (h' & Heq & Hr').
    + assert (length ms <= length (join_dots (ram_text iter <$> ms)))%nat; [|lia].
      clear -Hi Hall. induction Hall as [|m [|m2 ms] [_ Hm] Hall IH]; [cbn; lia| |].
      * pose proof (ram_text_len iter m Hi Hm). cbn in *. unfold len in *. lia.
      * cbn [fmap list_fmap] in *. rewrite join_cons, app_length. cbn [length] in *. lia.
    + destruct ms as [|m ms]; [congruence|]. inversion Hall as [|? ? [_ Hm] _]; subst.
      pose proof (ram_text_len iter m Hi Hm).
      assert (ram_text iter m ∈ (ram_text iter <$> m :: ms)) as Hin by (cbn; left).
      pose proof (join_len_ge _ _ Hin). lia.
    + change (len (@nil ascii)) with 0 in Heq. rewrite Heq. f_equal. eapply hrepr_unique; eassumption.
  - destruct ms; [congruence|discriminate].
  - apply Forall_fmap. eapply Forall_impl; [exact Hall|]. intros m [_ Hm]. unfold compose. split; [apply ram_text_no_dot|].
    pose proof (ram_text_len iter m Hi Hm). replace (len ramdata_sufix) with 6 by reflexivity. lia.
  - apply ramdata_sufix_dot.
  - unfold W64, INT_MAX in *. lia.
Qed.

(** single-RAM text, as stored for each RAM of a discriminator *)
Lemma handle_of_ram_text iter f m : valid_iter iter -> valid_entries m -> m <> ∅ ->
  len (ram_text iter m) <= INT_MAX -> handle_of_text f (ram_text iter m) = Ok (<[0 := m]> ∅).
Proof.
  intros Hi Hv Hm Hl.
  apply (handle_text_roundtrip iter f (<[0 := m]> ∅) [m]); auto; try congruence.
  apply (hrepr_push ∅ [] m hrepr_nil).
Qed.
