(** Lemmas for C63: saving a discriminator to a file that already holds one. *)
From Verif Require Import Prelude Bytes Base64 Utils BinInput Ram Json Fs RamData Disc SpecBase64 SpecDisc SpecSaved.
From Verif Require Import Base64Proofs BytesProofs TextProofs RamDataProofs DiscCtorProofs CtorFacts JsonNF JsonProofs RamProofs DiscProofs DiscFacts JsonFacts.

Lemma encode_glue a : forall b, len a mod 3 = 0 -> encode (a ++ b) = encode a ++ encode b.
Proof.
  induction a as [|x|x y|x y z a IH] using list_ind3; intros b Hm; [reflexivity|discriminate|discriminate|].
  cbn [app]. rewrite !encode3. cbn [app]. rewrite IH; [reflexivity|].
  assert (El : len (x :: y :: z :: a) = len a + 1 * 3) by (unfold len; cbn [length]; lia). rewrite El, Z_mod_plus_full in Hm. exact Hm.
Qed.
Lemma foldl_insert_over l (m m0 : gmap Z Z) : l ≡ₚ map_to_list m -> foldl (fun m kv => <[kv.1 := kv.2]> m) m0 l = m ∪ m0.
Proof.
  intros Hp. rewrite <- (foldl_insert_map l m Hp). clear Hp. induction l as [|kv l IH] using rev_ind; cbn [foldl].
  - rewrite (left_id_L ∅ (∪)). reflexivity.
  - rewrite !foldl_app. cbn [foldl]. rewrite IH. apply insert_union_l.
Qed.
Lemma glued_text iter a b : valid_iter iter -> valid_entries a -> valid_entries b -> a <> ∅ -> dataToRam (ram_text iter a ++ ram_text iter b) = Ok (b ∪ a).
Proof.
  intros Hi Ha Hb Hne. unfold ram_text. pose proof (ram_bytes_length (iter a)) as La.
  assert (Hnil : ram_bytes (iter a) <> []).
  { pose proof (iter_nil iter a Hi Hne). destruct (iter a) as [|[x v] l]; [congruence|].
    intros E. apply (f_equal len) in E. rewrite ram_bytes_length, len_cons, len_nil in E. pose proof (len_nonneg l). lia. }
  rewrite <- encode_glue.
  2:{ rewrite La. replace (12 * len (iter a)) with (4 * len (iter a) * 3) by lia. apply Z.mod_mul. lia. }
  unfold dataToRam. rewrite decode_encode by (intros E; apply app_eq_nil in E as (E & _); contradiction). cbn [rbind].
  assert (Eb : ram_bytes (iter a) ++ ram_bytes (iter b) = ram_bytes (iter a ++ iter b)).
  { unfold ram_bytes. rewrite fmap_app, concat_app. reflexivity. }
  rewrite Eb, ram_bytes_length, Z.mul_comm, Z.mod_mul by lia. cbn [Z.eqb negb]. rewrite blocks_spec.
  - rewrite foldl_app, (foldl_insert_map (iter a) a (Hi a)). f_equal. apply foldl_insert_over, Hi.
  - pose proof (ram_bytes_length (iter a ++ iter b)). unfold len in *. lia.
  - apply Forall_app. split; apply Forall_forall; intros [x v] Hin; rewrite (Hi _) in Hin; apply elem_of_map_to_list in Hin; [apply (Ha x v Hin)|apply (Hb x v Hin)].
Qed.

(** One field read back. *)
Lemma one_field f t m : "."%char ∉ t -> 6 <= len t <= INT_MAX -> dataToRam t = Ok m -> handle_of_text f t = Ok (<[0 := m]> ∅).
Proof.
  intros Hd Hl Hm. unfold handle_of_text. assert (has_suffix t ramdata_sufix = Ok false) as ->.
  { apply (has_suffix_join [t]); [discriminate| |apply ramdata_sufix_dot|].
    - constructor; [|constructor]. split; [exact Hd|]. change (len ramdata_sufix) with 6. lia.
    - cbn [join_dots]. unfold W64, INT_MAX in *. lia. }
  cbn [rbind]. cbn [setData_loop]. destruct (Z.ltb_spec 0 (len t)); [|lia].
  assert (find_char "." t 0 = npos) as -> by (apply (find_char_none "." [] t); [reflexivity|exact Hd]). change (u32 npos) with 4294967295. change (u32 (4294967295 - 0)) with 4294967295.
  assert (substr t 0 4294967295 = Ok t) as ->.
  { apply (substr_rest [] t); cbn [app]; [unfold W64, INT_MAX in *; lia|]. change (u64 4294967295) with 4294967295. unfold INT_MAX in *. lia. }
  cbn [rbind]. rewrite Hm. cbn [rbind]. assert (Hz : (0 < length t)%nat) by (unfold len in Hl; lia). destruct (length t) as [|n]; [lia|]. cbn [setData_loop].
  destruct (Z.ltb_spec 4294967295 (len t)); [unfold INT_MAX in *; lia|]. reflexivity.
Qed.
Lemma part_text f iz base r t m : storable_ram iz base r -> "."%char ∉ t -> 6 <= len t <= INT_MAX -> dataToRam t = Ok m ->
  ram_of_parts f (rbase_of iz base) (jints (r_addresses r)) t = Ok (Ram (r_addresses r) m iz base).
Proof.
  intros (Hz & Hb & H2 & Hib & Hw & Ha & Hv & Hne) Hd Hl Hm. unfold ram_of_parts, ram_of_json.
  destruct (part_fields (jints (r_addresses r)) t iz base) as (-> & -> & -> & ->). cbn [rbind jget_bool].
  cbn [jget_int rbind]. rewrite s32_id by exact Hib. rewrite jget_ints_jints by exact Ha. cbn [rbind].
  pose proof (width_64 base _ H2 (len_nonneg _) Hw) as H64. pose proof (len_nonneg (r_addresses r)).
  rewrite s32_id by (unfold INT_MIN, INT_MAX; lia). rewrite checkLimit_spec by (unfold INT_MAX; lia).
  assert ((if base =? 2 then if len (r_addresses r) <=? 64 then Ok tt else Throw limit_exn
           else if base ^ len (r_addresses r) <=? LL_MAX then Ok tt else UB UBOverflow) = Ok tt) as ->.
  { unfold width_ok in Hw. destruct (base =? 2); [destruct (Z.leb_spec (len (r_addresses r)) 64); [reflexivity|lia]|].
    destruct (Z.leb_spec (base ^ len (r_addresses r)) LL_MAX); [reflexivity|lia]. }
  cbn [rbind jget_str]. rewrite (one_field f t m Hd Hl Hm). cbn [rbind].
  unfold handle_get_ram, touch. rewrite lookup_insert. reflexivity.
Qed.
(** Reading the fields of a file for given RAMs. *)
Lemma file_fields f iz base : forall (rs : list ram) (ts : list str) (ms : list (gmap Z Z)), ts <> [] -> Forall (storable_ram iz base) rs ->
  Forall2 (fun t m => "."%char ∉ t /\ 6 <= len t <= INT_MAX /\ dataToRam t = Ok m) ts ms ->
  rams_of_file f (rbase_of iz base) (jints <$> (r_addresses <$> rs)) (join_dots ts) false = Ok (zip_with (fun r m => Ram (r_addresses r) m iz base) rs ms).
Proof.
  induction rs as [|r rs IH]; intros ts ms Hl Hall Hts; [reflexivity|]. rewrite !fmap_cons. cbn [rams_of_file]. apply Forall_cons in Hall as [Hr Hall].
  destruct Hts as [|t m ts ms (Hd & Hlt & Hm) Hts]; [congruence|]. cbn [zip_with].
  destruct ts as [|t2 ts].
  - apply Forall2_nil_inv_l in Hts as ->. cbn [join_dots]. rewrite getline_end by exact Hd. rewrite (part_text f iz base r t m Hr Hd Hlt Hm). cbn [rbind]. destruct rs; reflexivity.
  - rewrite join_cons, getline_app by exact Hd. rewrite (part_text f iz base r t m Hr Hd Hlt Hm). cbn [rbind].
    rewrite (IH (t2 :: ts) ms); [reflexivity|discriminate|exact Hall|exact Hts].
Qed.
Lemma border_join (xs : list str) (a b : str) ys : join_dots (xs ++ [a]) ++ join_dots (b :: ys) = join_dots (xs ++ (a ++ b) :: ys).
Proof.
  induction xs as [|x xs IH]; cbn [app].
  - rewrite (join_head b), (join_head (a ++ b)), <- app_assoc. reflexivity.
  - rewrite (join_head x), (join_head x (xs ++ _)). rewrite <- app_assoc. f_equal.
    assert (H : forall l (z : str) zs, (match l ++ z :: zs with [] => [] | _ => "."%char :: join_dots (l ++ z :: zs) end : str) = "."%char :: join_dots (l ++ z :: zs)).
    { intros l z zs. destruct l; reflexivity. }
    rewrite !H. cbn [app]. rewrite IH. reflexivity.
Qed.

(** Saving d1 and then d2 to the same file and reloading d2. *)
Lemma saved_over iter rnd f path iz1 base1 iz base (d1 d2 : disc) xs a b ys : valid_iter iter ->
  storable iter d1 -> Forall (storable_ram iz1 base1) (d_rams d1) -> storable iter d2 -> Forall (storable_ram iz base) (d_rams d2) ->
  saved_size d1 + saved_size d2 <= INT_MAX ->
  r_positions <$> d_rams d1 = xs ++ [a] -> r_positions <$> d_rams d2 = b :: ys ->
  let name := path ++ rnd ++ ramdata_sufix in
  utf8_ok name = true -> len name < W64 -> fs_writable f name = true -> fs_read f name = None ->
  exists j1 f1 j2 f2, disc_json iter rnd f d1 true path = (Ok j1, f1) /\ disc_json iter rnd f1 d2 true path = (Ok j2, f2) /\
    disc_of_json f2 j2 = Ok (Disc (d_entrySize d2) (d_count d2) (zip_with (fun r m => Ram (r_addresses r) m iz base) (d_rams d2) (xs ++ (b ∪ a) :: ys))).
Proof.
  intros Hi S1 A1 S2 A2 Hsz P1 P2 name Hun Hn Hw Hr.
  set (f1 := fs_append f name (ramsdata_file iter (d_rams d1))). set (f2 := fs_append f1 name (ramsdata_file iter (d_rams d2))).
  exists (json_value d1 name), f1, (json_value d2 name), f2.
  split. { rewrite disc_json_nf; unfold getRAMsData; cbn [fst snd]; [reflexivity|exact Hun]. }
  split. { rewrite disc_json_nf; unfold getRAMsData; cbn [fst snd]; [reflexivity|exact Hun]. }
  assert (Hread : fs_read f2 name = Some (join_dots (texts iter (d_rams d1)) ++ join_dots (texts iter (d_rams d2)))).
  { subst f2 f1. unfold fs_append. rewrite Hw. cbn [fs_writable]. rewrite Hw. unfold fs_read in *. cbn [fs_files]. rewrite !lookup_insert, Hr. cbn [from_option id].
    rewrite !file_join. reflexivity. }
  assert (T : forall rs, texts iter rs = ram_text iter <$> (r_positions <$> rs)) by (intros rs; unfold texts; rewrite <- list_fmap_compose; reflexivity).
  pose proof (texts_size iter d1 Hi (proj1 (proj2 (proj2 S1)))) as Z1. pose proof (texts_size iter d2 Hi (proj1 (proj2 (proj2 S2)))) as Z2.
  assert (V1 : Forall (fun m => valid_entries m /\ m <> ∅) (xs ++ [a])).
  { rewrite <- P1. apply Forall_fmap. eapply Forall_impl; [exact A1|]. intros r Hst. split; apply Hst. }
  assert (V2 : Forall (fun m => valid_entries m /\ m <> ∅) (b :: ys)).
  { rewrite <- P2. apply Forall_fmap. eapply Forall_impl; [exact A2|]. intros r Hst. split; apply Hst. }
  rewrite !T, P1, P2 in *.
  assert (Hall : match d_rams d2 with [] => False | r :: _ => r_ignoreZero r = iz /\ r_base r = base end).
  { destruct (d_rams d2) as [|r rs]; [discriminate|]. apply Forall_cons in A2 as [Hst _]. split; apply Hst. }
  destruct S2 as (He & Hc & _ & _ & _). rewrite (disc_of_value f2 d2 name iz base He Hc Hall). unfold setRAMsData.
  assert (En : name = (path ++ rnd) ++ ramdata_sufix) by (unfold name; rewrite <- app_assoc; reflexivity).
  assert (has_suffix name ramdata_sufix = Ok true) as -> by (rewrite En; apply has_suffix_app; rewrite <- En; exact Hn).
  cbn [rbind]. rewrite Hread, jvalues_jintss. unfold disc_mapping. rewrite fmap_app in *. cbn [fmap list_fmap] in *. rewrite border_join.
  assert (Hpos : length (d_rams d2) = S (length ys)) by (rewrite <- (fmap_length r_positions), P2; reflexivity).
  change (list_fmap (gmap Z Z) str (ram_text iter) ys) with (ram_text iter <$> ys) in *.
  assert (B1 : forall t, t ∈ (ram_text iter <$> xs) ++ [ram_text iter a] -> len t <= len (join_dots ((ram_text iter <$> xs) ++ [ram_text iter a]))) by (intros t Ht; apply join_len_ge; exact Ht).
  assert (B2 : forall t, t ∈ ram_text iter b :: (ram_text iter <$> ys) -> len t <= len (join_dots (ram_text iter b :: (ram_text iter <$> ys)))) by (intros t Ht; apply join_len_ge; exact Ht).
  pose proof (len_nonneg (join_dots ((ram_text iter <$> xs) ++ [ram_text iter a]))) as N1. pose proof (len_nonneg (join_dots (ram_text iter b :: (ram_text iter <$> ys)))) as N2.
  apply Forall_app in V1 as (Vx & Va). apply Forall_cons in Va as ((Va & Na) & _). apply Forall_cons in V2 as ((Vb & Nb) & Vy).
  assert (Hsimple : forall ms, Forall (fun m => valid_entries m /\ m <> ∅) ms -> Forall (fun t => len t <= INT_MAX) (ram_text iter <$> ms) ->
    Forall2 (fun t m => "."%char ∉ t /\ 6 <= len t <= INT_MAX /\ dataToRam t = Ok m) (ram_text iter <$> ms) ms).
  { intros ms Hms Hlt. induction Hms as [|m ms (Hv & Hne) Hms IHm]; [constructor|]. rewrite fmap_cons in *. apply Forall_cons in Hlt as (Hlt & Hlts). constructor; [|apply IHm; exact Hlts].
    split; [apply ram_text_no_dot|]. split; [pose proof (ram_text_len iter m Hi Hne); lia|]. apply dataToRam_text; assumption. }
  rewrite (file_fields f2 iz base (d_rams d2) _ (xs ++ (b ∪ a) :: ys)); [reflexivity| |exact A2|].
  - intros E. apply app_eq_nil in E as (_ & E). discriminate.
  - apply Forall2_app; [apply Hsimple; [exact Vx|]; apply Forall_forall; intros t Ht; specialize (B1 t ltac:(apply elem_of_app; left; exact Ht)); lia|].
    constructor; [|apply Hsimple; [exact Vy|]; apply Forall_forall; intros t Ht; specialize (B2 t ltac:(right; exact Ht)); lia].
    split; [rewrite elem_of_app; intros [H|H]; revert H; apply ram_text_no_dot|]. split; [|apply glued_text; assumption].
    rewrite len_app. pose proof (ram_text_len iter a Hi Na). pose proof (len_nonneg (ram_text iter b)).
    specialize (B1 (ram_text iter a) ltac:(apply elem_of_app; right; left)). specialize (B2 (ram_text iter b) ltac:(left)). lia.
Qed.

(** Saving d2 where it cannot be written, to a file that holds d1. *)
Lemma saved_under iter rnd f path iz1 base1 iz base (d1 d2 : disc) : valid_iter iter ->
  storable iter d1 -> Forall (storable_ram iz1 base1) (d_rams d1) -> storable iter d2 -> Forall (storable_ram iz base) (d_rams d2) ->
  let name := path ++ rnd ++ ramdata_sufix in
  utf8_ok name = true -> len name < W64 -> fs_writable f name = true -> fs_read f name = None ->
  exists j1 f1 j2, disc_json iter rnd f d1 true path = (Ok j1, f1) /\
    (forall f1', fs_files f1' = fs_files f1 -> fs_writable f1' name = false ->
     disc_json iter rnd f1' d2 true path = (Ok j2, f1') /\
     disc_of_json f1' j2 = Ok (Disc (d_entrySize d2) (d_count d2) (zip_with (fun r m => Ram (r_addresses r) m iz base) (d_rams d2) (r_positions <$> d_rams d1)))).
Proof.
  intros Hi S1 A1 S2 A2 name Hun Hn Hw Hr.
  set (f1 := fs_append f name (ramsdata_file iter (d_rams d1))). exists (json_value d1 name), f1, (json_value d2 name).
  split. { rewrite disc_json_nf; unfold getRAMsData; cbn [fst snd]; [reflexivity|exact Hun]. }
  intros f1' Hf' Hw'. split. { rewrite disc_json_nf; unfold getRAMsData; cbn [fst snd]; [|exact Hun]. unfold fs_append. fold name. rewrite Hw'. reflexivity. }
  assert (T : texts iter (d_rams d1) = ram_text iter <$> (r_positions <$> d_rams d1)) by (unfold texts; rewrite <- list_fmap_compose; reflexivity).
  assert (Hread : fs_read f1' name = Some (join_dots (texts iter (d_rams d1)))).
  { unfold fs_read. rewrite Hf'. subst f1. unfold fs_append. rewrite Hw. unfold fs_read in *. cbn [fs_files]. rewrite !lookup_insert, Hr. cbn [from_option id].
    rewrite !file_join. reflexivity. }
  assert (V1 : Forall (fun m => valid_entries m /\ m <> ∅) (r_positions <$> d_rams d1)).
  { apply Forall_fmap. eapply Forall_impl; [exact A1|]. intros r Hst. split; apply Hst. }
  assert (Hall : match d_rams d2 with [] => False | r :: _ => r_ignoreZero r = iz /\ r_base r = base end).
  { destruct S2 as (_ & _ & Hne & _). destruct (d_rams d2) as [|r rs]; [congruence|]. apply Forall_cons in A2 as [Hst _]. split; apply Hst. }
  destruct S2 as (He & Hc & _ & _ & _). destruct S1 as (_ & _ & Hne & _ & Hlen). rewrite (disc_of_value f1' d2 name iz base He Hc Hall). unfold setRAMsData.
  assert (En : name = (path ++ rnd) ++ ramdata_sufix) by (unfold name; rewrite <- app_assoc; reflexivity).
  assert (has_suffix name ramdata_sufix = Ok true) as -> by (rewrite En; apply has_suffix_app; rewrite <- En; exact Hn).
  cbn [rbind]. rewrite Hread, jvalues_jintss. unfold disc_mapping. rewrite T in *.
  rewrite (file_fields f1' iz base (d_rams d2) _ (r_positions <$> d_rams d1)); [reflexivity| |exact A2|].
  - destruct (d_rams d1); [congruence|discriminate].
  - assert (B1 : forall t, t ∈ ram_text iter <$> (r_positions <$> d_rams d1) -> len t <= INT_MAX) by (intros t Ht; etransitivity; [apply join_len_ge; exact Ht|exact Hlen]).
    clear -V1 B1 Hi. induction V1 as [|m ms (Hv & Hm) Hms IHm]; [constructor|]. rewrite fmap_cons in *. constructor; [|apply IHm; intros t Ht; apply B1; right; exact Ht].
    split; [apply ram_text_no_dot|]. split; [pose proof (ram_text_len iter m Hi Hm); specialize (B1 (ram_text iter m) ltac:(left)); lia|]. apply dataToRam_text; assumption.
Qed.
