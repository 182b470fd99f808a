(** Proofs for C146. *)
From Verif Require Import Prelude Bytes Base64 Utils BinInput Bleaching Ram Json Fs RamData Disc Wisard Cluster ClusWisard JsonText TextApi.
From Verif Require Import SpecDisc SpecSaved SpecText SpecCanon.
From Verif Require Import Base64Proofs BytesProofs TextProofs RamDataProofs JsonNF JsonProofs TextString TextNumber TextParse TextApiProofs.
From Verif Require Import SpecBase64 Nearest BleachProofs.

(** ** Texts that are written as they are *)
Definition plain_b (c : ascii) : bool := (35 <=? byte c) && (byte c <? 128) && negb (byte c =? 92).
Lemma plain_step c cp s : plain_b c = true -> exists cp', escaped 0 cp (c :: s) = c :: escaped 0 cp' s /\ utf8_step 0 c = 0.
Proof. destruct c as [[] [] [] [] [] [] [] []]; intros H; try (exfalso; vm_compute in H; discriminate); eexists; (split; [reflexivity|vm_compute; reflexivity]). Qed.
Lemma plain_escaped s : Forall (fun c => plain_b c = true) s -> forall cp, escaped 0 cp s = s /\ foldl utf8_step 0 s = 0.
Proof.
  induction 1 as [|c s Hc _ IH]; intros cp; [split; reflexivity|]. destruct (plain_step c cp s Hc) as (cp' & -> & Es).
  destruct (IH cp') as [E1 E2]. rewrite E1. split; [reflexivity|]. cbn [foldl]. rewrite Es. exact E2.
Qed.
Lemma plain_quote s : Forall (fun c => plain_b c = true) s -> quote s = Ok ([to_char 34] ++ s ++ [to_char 34]).
Proof.
  intros H. rewrite quote_eq. destruct (plain_escaped s H 0) as [E1 E2]. unfold utf8_ok. rewrite E2, E1. reflexivity.
Qed.

(** ** The text of a discriminator *)
Lemma disc_value_eq iter rnd f d huge path :
  disc_json_value iter rnd f d huge path =
    (Ok (json_value d (fst (getRAMsData iter rnd f d huge path))), snd (getRAMsData iter rnd f d huge path)).
Proof.
  unfold disc_json_value. destruct (getRAMsData _ _ _ _ _ _) as [data f']. cbn [fst snd].
  f_equal. unfold json_value. rewrite disc_config_nf. cbn [rbind app]. unfold merge_ram_config.
  generalize (jintss (disc_mapping d)) as m. intros m. destruct (d_rams d) as [|r rs]; reflexivity.
Qed.
Lemma dump_int z : is_int z -> exists t, dump_at false 0 0 (JInt z) = Ok t.
Proof.
  intros H. destruct (dump_integer_scan strtod_even z) as (t & E & _); [|exists t; exact E].
  unfold is_int, INT_MIN, INT_MAX in H. unfold in_json_int. unfold LL_MIN, W64. lia.
Qed.
Lemma dump_mapping d : int_disc d -> exists t, dump_at false 0 0 (jintss (disc_mapping d)) = Ok t.
Proof.
  intros (_ & _ & H). assert (Hm : Forall (Forall is_int) (disc_mapping d)).
  { unfold disc_mapping. apply Forall_fmap. eapply Forall_impl; [exact H|]. intros r [_ Hr]. exact Hr. }
  pose proof (dump_parse strtod_even false 0 _ (jintss_wf strtod_even _ Hm)) as E. rewrite CtorFacts.retext_jintss in E.
  destruct (dump_at false 0 0 (jintss (disc_mapping d))) as [t| | |]; cbn [rbind] in E; try discriminate. eauto.
Qed.
Lemma value_dump d : int_disc d -> d_rams d <> [] -> exists pre post, forall data, Forall (fun c => plain_b c = true) data ->
  json_dump (json_value d data) = Ok (pre ++ data ++ post).
Proof.
  intros Hd Hne. pose proof (dump_mapping d Hd) as (tm & Em). destruct Hd as (He & Hc & Hr).
  destruct (dump_int _ He) as (te & Ee). destruct (dump_int _ Hc) as (tc & Ec).
  unfold json_value. destruct (d_rams d) as [|r rs]; [congruence|]. apply Forall_inv in Hr as [Hb _].
  destruct (dump_int _ Hb) as (tb & Eb). revert Em. generalize (jintss (disc_mapping d)). intros m Em.
  eexists (lit "{" ++ lit """base"":" ++ tb ++ lit ",""count"":" ++ tc ++ lit ",""data"":" ++ [to_char 34]),
   ([to_char 34] ++ lit ",""entrySize"":" ++ te ++ lit ",""ignoreZero"":" ++ (if r_ignoreZero r then lit "true" else lit "false") ++
     lit ",""mapping"":" ++ tm ++ lit ",""version"":" ++ [to_char 34] ++ version ++ [to_char 34] ++ lit "}"). intros data Hp.
  unfold json_dump. cbn [dump_at Nat.add].
  change (dump_integer (r_base r)) with (dump_at false 0 0 (JInt (r_base r))).
  change (dump_integer (d_count d)) with (dump_at false 0 0 (JInt (d_count d))).
  change (dump_integer (d_entrySize d)) with (dump_at false 0 0 (JInt (d_entrySize d))).
  rewrite Eb, Ec, Ee, Em, (plain_quote data Hp).
  repeat match goal with |- context [quote (lit ?s)] => let v := eval vm_compute in (quote (lit s)) in change (quote (lit s)) with v end.
  assert (Ev : quote version = Ok ([to_char 34] ++ version ++ [to_char 34])) by (vm_compute; reflexivity). rewrite Ev.
  cbn [rbind join_comma newline]. f_equal. rewrite <- !app_assoc. cbn. reflexivity.
Qed.

(** ** Records *)
Lemma encode_three (s t : str) : (length s mod 3 = 0)%nat -> encode (s ++ t) = encode s ++ encode t.
Proof.
  assert (H : forall n (s : str), (length s <= n)%nat -> (length s mod 3 = 0)%nat -> encode (s ++ t) = encode s ++ encode t); [|apply (H (length s)); lia].
  induction n as [|n IH]; intros [|a [|b [|c s']]] Hl Hm; try reflexivity; try (cbn in Hl; lia); try (cbn in Hm; discriminate).
  cbn [app]. rewrite !encode3. cbn [app]. do 4 f_equal. apply IH; [cbn in Hl; lia|].
  cbn [length] in Hm. replace (S (S (S (length s')))) with (length s' + 1 * 3)%nat in Hm by lia. rewrite Nat.mod_add in Hm by lia. exact Hm.
Qed.
Lemma record_bytes_len kv : length (bytes_of_addr kv.1 ++ bytes_of_content kv.2) = 12%nat.
Proof. reflexivity. Qed.
Lemma ram_text_records iter m : ram_text iter m = List.concat (record_text <$> iter m).
Proof.
  unfold ram_text, ram_bytes. induction (iter m) as [|kv l IH]; [reflexivity|]. rewrite !fmap_cons. cbn [List.concat].
  rewrite encode_three by (rewrite record_bytes_len; reflexivity). rewrite IH. reflexivity.
Qed.
Lemma record_len kv : length (record_text kv) = 16%nat.
Proof. reflexivity. Qed.
Lemma dotted_join l : dotted l = join_dots l.
Proof. induction l as [|s [|s' l] IH]; [reflexivity|reflexivity|]. cbn [dotted] in *. rewrite join_cons, <- IH. reflexivity. Qed.
Lemma alphabet_plain c : in_alphabet c \/ c = pad -> plain_b c = true.
Proof.
  intros [[v [Hv ->]]| ->]; [|vm_compute; reflexivity].
  assert (in64 v = true) as Hi by (unfold in64; lia). clear Hv. revert v Hi.
  apply (in64_cases (fun v => plain_b (rfc_char v))). vm_compute. reflexivity.
Qed.
Lemma dotted_plain l : Forall (Forall (fun c => plain_b c = true)) l -> Forall (fun c => plain_b c = true) (dotted l).
Proof.
  induction 1 as [|s [|s' l] Hs _ IH]; [constructor|exact Hs|]. cbn [dotted] in *. apply Forall_app. split; [exact Hs|].
  apply Forall_app. split; [repeat constructor|exact IH].
Qed.
Lemma rams_text iter d : good_iter iter -> Forall (fun r => r_positions r <> ∅) (d_rams d) ->
  ramsdata_mem iter (d_rams d) [] = records_text ((fun r => iter (r_positions r)) <$> d_rams d) /\
  Forall (fun c => plain_b c = true) (ramsdata_mem iter (d_rams d) []).
Proof.
  intros Hi Hne. assert (E : ramsdata_mem iter (d_rams d) [] = dotted (texts iter (d_rams d))).
  { rewrite dotted_join. apply mem_join. unfold texts. apply Forall_fmap. eapply Forall_impl; [exact Hne|]. intros r Hr. apply ram_text_len; [exact Hi|exact Hr]. }
  rewrite E. split.
  - unfold records_text. f_equal. rewrite <- list_fmap_compose. unfold texts. apply list_fmap_ext. intros _ r _. apply ram_text_records.
  - apply dotted_plain. unfold texts. apply Forall_fmap, Forall_true. intros r. unfold ram_getData, ram_text. cbn.
    eapply Forall_impl; [apply encode_charset|]. exact alphabet_plain.
Qed.
Lemma disc_text_shape d : int_disc d -> d_rams d <> [] -> Forall (fun r => r_positions r <> ∅) (d_rams d) ->
  exists pre post, forall iter rnd f path, good_iter iter ->
    disc_json_text iter rnd f d false path = (Ok (pre ++ records_text ((fun r => iter (r_positions r)) <$> d_rams d) ++ post), f).
Proof.
  intros Hd Hn Hne. destruct (value_dump d Hd Hn) as (pre & post & H). exists pre, post. intros iter rnd f path Hi.
  destruct (rams_text iter d Hi Hne) as [E Hp]. unfold disc_json_text. rewrite disc_value_eq. cbn [getRAMsData fst snd rbind]. rewrite (H _ Hp), E. reflexivity.
Qed.
(** Equal lengths. *)
Lemma iter_len (iter : iteration) m : good_iter iter -> length (iter m) = size m.
Proof. intros H. rewrite (Permutation_length (H m)). reflexivity. Qed.
Lemma concat_len (l l' : list (Z * Z)) : length l = length l' -> length (List.concat (record_text <$> l)) = length (List.concat (record_text <$> l')).
Proof.
  revert l'. induction l as [|a l IH]; intros [|b l'] H; try discriminate; [reflexivity|]. rewrite !fmap_cons. cbn [List.concat]. rewrite !app_length, !record_len.
  rewrite (IH l'); [reflexivity|]. cbn in H. lia.
Qed.
Lemma records_len (iter1 iter2 : iteration) (rs : list ram) : good_iter iter1 -> good_iter iter2 ->
  length (records_text ((fun r => iter1 (r_positions r)) <$> rs)) = length (records_text ((fun r => iter2 (r_positions r)) <$> rs)).
Proof.
  intros H1 H2. unfold records_text. rewrite <- !list_fmap_compose. unfold compose.
  induction rs as [|r [|r' rs] IH]; [reflexivity| |].
  - cbn. apply concat_len. rewrite !iter_len by assumption. reflexivity.
  - rewrite !fmap_cons in *. cbn [dotted] in *. rewrite !app_length. rewrite IH. f_equal. apply concat_len. rewrite !iter_len by assumption. reflexivity.
Qed.

(** ** Sparse models *)
Lemma sparse_iter (iter1 iter2 : iteration) m : good_iter iter1 -> good_iter iter2 -> (size m <= 1)%nat -> iter1 m = iter2 m.
Proof.
  intros H1 H2 Hs. assert (P : iter1 m ≡ₚ iter2 m) by (rewrite (H1 m), (H2 m); reflexivity).
  pose proof (iter_len iter2 m H2) as L.
  destruct (iter2 m) as [|x [|y l]]; [apply Permutation_nil_r in P; exact P|apply Permutation_singleton_r in P; exact P|cbn in L; lia].
Qed.
Lemma same_mem (iter1 iter2 : iteration) rs : Forall (fun r => iter1 (r_positions r) = iter2 (r_positions r)) rs ->
  forall data, ramsdata_mem iter1 rs data = ramsdata_mem iter2 rs data.
Proof.
  induction 1 as [|r rs E _ IH]; intros data; [reflexivity|]. cbn [ramsdata_mem]. unfold ram_getData at 2. rewrite <- IH. unfold ram_getData at 1, ram_text. rewrite <- E. reflexivity.
Qed.
Lemma same_file (iter1 iter2 : iteration) rs : Forall (fun r => iter1 (r_positions r) = iter2 (r_positions r)) rs ->
  ramsdata_file iter1 rs = ramsdata_file iter2 rs.
Proof.
  intros H. unfold ramsdata_file. f_equal. apply imap_ext. intros i r Hr. unfold ram_getData, ram_text.
  rewrite Forall_forall in H. rewrite (H r); [reflexivity|]. eapply elem_of_list_lookup_2. exact Hr.
Qed.
Section sparse.
  Context (iter1 iter2 : iteration) (H1 : good_iter iter1) (H2 : good_iter iter2).
  Lemma sparse_rams d : sparse d -> Forall (fun r => iter1 (r_positions r) = iter2 (r_positions r)) (d_rams d).
  Proof. intros H. eapply Forall_impl; [exact H|]. intros r Hr. apply sparse_iter; assumption. Qed.
  Lemma sparse_data rnd f d huge path : sparse d -> getRAMsData iter1 rnd f d huge path = getRAMsData iter2 rnd f d huge path.
  Proof. intros H. apply sparse_rams in H. unfold getRAMsData. rewrite (same_file _ _ _ H), (same_mem _ _ _ H). reflexivity. Qed.
  Lemma sparse_disc rnd f d huge path : sparse d -> disc_json_text iter1 rnd f d huge path = disc_json_text iter2 rnd f d huge path.
  Proof. intros H. unfold disc_json_text, disc_json_value. rewrite (sparse_data _ _ _ _ _ H). reflexivity. Qed.
  Lemma sparse_getJSON rnd f d huge path : sparse d -> disc_getJSON iter1 rnd f d huge path = disc_getJSON iter2 rnd f d huge path.
  Proof. intros H. unfold disc_getJSON. rewrite (sparse_data _ _ _ _ _ H). reflexivity. Qed.
  Lemma sparse_classes rnd huge path l : Forall (fun kd => sparse kd.2) l -> forall c f,
    classes_json iter1 rnd huge path l c f = classes_json iter2 rnd huge path l c f.
  Proof.
    induction 1 as [|[k d] l Hd _ IH]; intros c f; [reflexivity|]. cbn [classes_json]. cbn in Hd. rewrite (sparse_getJSON _ _ _ _ _ Hd).
    destruct (disc_getJSON _ _ _ _ _ _) as [r f']. destruct (let* j := r in jset c k j); [apply IH|reflexivity..].
  Qed.
  Lemma sparse_wisard_text rnd f w huge path : sparse_wisard w -> wisard_json_text iter1 rnd f w huge path = wisard_json_text iter2 rnd f w huge path.
  Proof.
    intros H. unfold wisard_json_text. rewrite sparse_classes; [reflexivity|]. apply Forall_forall. intros [l d] Hin.
    apply (H l d). apply sorted_items_elem. exact Hin.
  Qed.
  Lemma sparse_jsons rnd huge path ds : (forall d, Some d ∈ ds -> sparse d) -> forall i acc f,
    cluster_jsons iter1 rnd huge path ds i acc f = cluster_jsons iter2 rnd huge path ds i acc f.
  Proof.
    induction ds as [|[d|] ds IH]; intros H i acc f; [reflexivity| |reflexivity]. cbn [cluster_jsons].
    rewrite (sparse_getJSON _ _ _ _ _ (H d (elem_of_list_here _ _))). destruct (disc_getJSON _ _ _ _ _ _) as [r f'].
    destruct r; [|reflexivity..]. apply IH. intros e He. apply H. right. exact He.
  Qed.
  Lemma sparse_cluster_json rnd f c huge path : sparse_cluster c -> cluster_getJson iter1 rnd f c huge path = cluster_getJson iter2 rnd f c huge path.
  Proof. intros H. unfold cluster_getJson. rewrite (sparse_jsons _ _ _ _ H). reflexivity. Qed.
  Lemma sparse_clusters rnd huge path l : Forall (fun kc => sparse_cluster kc.2) l -> forall c f,
    clusters_json iter1 rnd huge path l c f = clusters_json iter2 rnd huge path l c f.
  Proof.
    induction 1 as [|[k d] l Hd _ IH]; intros c f; [reflexivity|]. cbn [clusters_json]. cbn in Hd. rewrite (sparse_cluster_json _ _ _ _ _ Hd).
    destruct (cluster_getJson _ _ _ _ _ _) as [r f']. destruct (let* j := r in jset c k j); [apply IH|reflexivity..].
  Qed.
  Lemma sparse_clus_text rnd urnd f k huge path : sparse_clus k -> clus_json_text iter1 rnd urnd f k huge path = clus_json_text iter2 rnd urnd f k huge path.
  Proof.
    intros [Hc Hu]. unfold clus_json_text. rewrite (sparse_clusters rnd huge path (sorted_items (k_clusters k))).
    - destruct (if Nat.eqb _ _ then _ else _) as [r f1]. destruct r; [|reflexivity..]. destruct (Nat.eqb _ _); [reflexivity|].
      rewrite (sparse_cluster_json _ _ _ _ _ Hu). reflexivity.
    - apply Forall_forall. intros [l d] Hin. apply (Hc l d). apply sorted_items_elem. exact Hin.
  Qed.
End sparse.

