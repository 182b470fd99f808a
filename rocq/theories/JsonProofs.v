(** Saving and reloading a discriminator (C57-C59, C62, C63). *)
From Verif Require Import Prelude Bytes Base64 Utils BinInput Ram Json Fs RamData Disc SpecBase64 SpecBin SpecDisc SpecSaved.
From Verif Require Import Base64Proofs BytesProofs TextProofs RamDataProofs DiscCtorProofs CtorFacts JsonNF RamProofs DiscProofs DiscFacts.

(** What one RAM needs to survive: parameters common to the discriminator, C ints and contents. *)
Definition storable_ram (iz : bool) (base : Z) (r : ram) : Prop :=
  r_ignoreZero r = iz /\ r_base r = base /\ 2 <= base /\ is_int base /\ width_ok base (len (r_addresses r)) /\
  Forall is_int (r_addresses r) /\ valid_entries (r_positions r) /\ r_positions r <> ∅.
Definition texts (iter : iteration) (rs : list ram) : list str := ram_getData iter <$> rs.
Definition storable (iter : iteration) (d : disc) : Prop :=
  is_int (d_entrySize d) /\ is_int (d_count d) /\ d_rams d <> [] /\
  (exists iz base, Forall (storable_ram iz base) (d_rams d)) /\ len (join_dots (texts iter (d_rams d))) <= INT_MAX.

Lemma jget_ints_jints l : Forall is_int l -> jget_ints (jints l) = Ok l.
Proof.
  intros H. unfold jints, jget_ints. induction H as [|z l Hz _ IH]; [reflexivity|]. rewrite fmap_cons. cbn [rmapM jget_int rbind].
  rewrite s32_id by exact Hz. rewrite IH. reflexivity.
Qed.
Lemma jget_intss_jintss l : Forall (Forall is_int) l -> jget_intss (jintss l) = Ok l.
Proof.
  intros H. unfold jintss, jget_intss. induction H as [|z l Hz _ IH]; [reflexivity|]. rewrite fmap_cons. cbn [rmapM].
  rewrite (jget_ints_jints z Hz). cbn [rbind]. rewrite IH. reflexivity.
Qed.
Lemma width_64 base n : 2 <= base -> 0 <= n -> width_ok base n -> n <= 64.
Proof.
  unfold width_ok. intros Hb Hn. destruct (base =? 2); [auto|]. intros H. destruct (Z.le_gt_cases n 64) as [|Hg]; [assumption|].
  exfalso. assert (2 ^ 64 <= base ^ n); [|unfold LL_MAX in *; lia].
  transitivity (2 ^ n); [apply Z.pow_le_mono_r; lia|]. apply Z.pow_le_mono_l. lia.
Qed.

Definition rbase_of (iz : bool) (base : Z) : json := jobject [ (lit "ignoreZero", JBool iz); (lit "base", JInt base) ].
Lemma part_fields a data iz base :
  let c := merge_patch (jobject [ (lit "addresses", a); (lit "data", JStr data) ]) (rbase_of iz base) in
  jfield c (lit "ignoreZero") = Ok (JBool iz) /\ jfield c (lit "base") = Ok (JInt base) /\
  jfield c (lit "addresses") = Ok a /\ jfield c (lit "data") = Ok (JStr data).
Proof. cbv zeta. repeat split; reflexivity. Qed.

Lemma ram_of_parts_ok iter f iz base r : valid_iter iter -> storable_ram iz base r -> len (ram_getData iter r) <= INT_MAX ->
  ram_of_parts f (rbase_of iz base) (jints (r_addresses r)) (ram_getData iter r) = Ok r.
Proof.
  intros Hi (Hz & Hb & H2 & Hib & Hw & Ha & Hv & Hne) Hl. unfold ram_of_parts, ram_of_json.
  destruct (part_fields (jints (r_addresses r)) (ram_getData iter r) iz base) as (-> & -> & -> & ->). cbn [rbind jget_bool].
  cbn [jget_int rbind]. rewrite s32_id by exact Hib. rewrite jget_ints_jints by exact Ha. cbn [rbind].
  pose proof (width_64 base _ H2 (len_nonneg _) Hw) as H64. pose proof (len_nonneg (r_addresses r)).
  rewrite s32_id by (unfold INT_MIN, INT_MAX; lia). rewrite checkLimit_spec by (unfold INT_MAX; lia).
  assert ((if base =? 2 then if len (r_addresses r) <=? 64 then Ok tt else Throw limit_exn
           else if base ^ len (r_addresses r) <=? LL_MAX then Ok tt else UB UBOverflow) = Ok tt) as ->.
  { unfold width_ok in Hw. destruct (base =? 2); [destruct (Z.leb_spec (len (r_addresses r)) 64); [reflexivity|lia]|].
    destruct (Z.leb_spec (base ^ len (r_addresses r)) LL_MAX); [reflexivity|lia]. }
  cbn [rbind jget_str]. unfold ram_getData. rewrite handle_of_ram_text by assumption. cbn [rbind].
  unfold handle_get_ram, touch. rewrite lookup_insert. cbn [fst]. destruct r; cbn in *. congruence.
Qed.

Lemma texts_seg iter iz base rs : valid_iter iter -> Forall (storable_ram iz base) rs ->
  Forall (fun s => "."%char ∉ s /\ 16 <= len s) (texts iter rs).
Proof.
  intros Hi H. unfold texts. apply Forall_fmap. eapply Forall_impl; [exact H|]. intros r (_ & _ & _ & _ & _ & _ & _ & Hne). unfold compose.
  split; [apply ram_text_no_dot|apply ram_text_len; assumption].
Qed.

(** what is written *)
Lemma join_tail s l : join_dots (s :: l) = s ++ List.concat ((fun s => "."%char :: s) <$> l).
Proof.
  revert s. induction l as [|a l IH]; intros s; [cbn; rewrite app_nil_r; reflexivity|]. rewrite join_cons, IH, fmap_cons. reflexivity.
Qed.
Lemma mem_texts iter rs : Forall (fun s => 16 <= len s) (texts iter rs) ->
  forall data, data <> [] -> ramsdata_mem iter rs data = join_dots (data :: texts iter rs).
Proof.
  unfold texts. induction rs as [|r rs IH]; intros H data Hd; [reflexivity|]. rewrite fmap_cons in *. apply Forall_cons in H as [_ H].
  cbn [ramsdata_mem]. destruct data as [|c data]; [congruence|].
  rewrite (IH H) by (intros E; apply (f_equal length) in E; rewrite !app_length in E; cbn in E; lia).
  rewrite !join_tail, fmap_cons. cbn [List.concat]. rewrite <- !app_assoc. reflexivity.
Qed.
Lemma mem_join iter rs : Forall (fun s => 16 <= len s) (texts iter rs) -> ramsdata_mem iter rs [] = join_dots (texts iter rs).
Proof.
  destruct rs as [|r rs]; [reflexivity|]. unfold texts. rewrite fmap_cons. intros H. apply Forall_cons in H as [Hr H].
  cbn [ramsdata_mem]. rewrite app_nil_l. apply mem_texts; [exact H|]. intros E. rewrite E in Hr. unfold len in Hr. cbn in Hr. lia.
Qed.
Lemma file_tail iter rs : List.concat (imap (fun i r => lit "." ++ ram_getData iter r) rs) =
  List.concat ((fun s => "."%char :: s) <$> texts iter rs).
Proof.
  unfold texts. induction rs as [|r rs IH]; [reflexivity|]. rewrite imap_cons, !fmap_cons. cbn [List.concat]. f_equal. exact IH.
Qed.
Lemma file_join iter rs : ramsdata_file iter rs = join_dots (texts iter rs).
Proof.
  destruct rs as [|r rs]; [reflexivity|]. unfold ramsdata_file, texts. rewrite imap_cons, fmap_cons, join_tail. cbn [List.concat Nat.eqb].
  cbn [app]. f_equal. etransitivity; [|exact (file_tail iter rs)]. reflexivity.
Qed.

(** reading back *)
Lemma rams_of_data_ok iter f iz base : valid_iter iter -> forall rs pre, rs <> [] -> Forall (storable_ram iz base) rs ->
  len (pre ++ join_dots (texts iter rs)) <= INT_MAX ->
  rams_of_data f (rbase_of iz base) (jints <$> (r_addresses <$> rs)) (pre ++ join_dots (texts iter rs)) (len pre) = Ok rs.
Proof.
  intros Hi. induction rs as [|r rs IH]; intros pre Hne Hall Hlen; [congruence|]. unfold texts in *. rewrite !fmap_cons in *.
  apply Forall_cons in Hall as [Hr Hall]. cbn [rams_of_data]. pose proof (len_nonneg pre).
  assert (Hd : "."%char ∉ ram_getData iter r) by apply ram_text_no_dot.
  destruct rs as [|r2 rs].
  - cbn [fmap list_fmap join_dots] in *. rewrite find_char_none by (auto; rewrite len_app in Hlen; pose proof (len_nonneg (ram_getData iter r)); unfold W64, INT_MAX in *; lia).
    change (s32 npos) with (-1). pose proof (len_nonneg (ram_getData iter r)).
    assert (len pre <= INT_MAX) by (rewrite len_app in Hlen; lia).
    rewrite substr_rest.
    + cbn [rbind]. change (int_of (-1 + 1)) with (@Ok Z 0). cbn [rbind]. rewrite (ram_of_parts_ok iter) by (auto; rewrite len_app in Hlen; lia). reflexivity.
    + unfold W64, INT_MAX in *. lia.
    + replace (-1 - len pre) with (- (len pre + 1)) by lia. rewrite u64_neg by (unfold W64, INT_MAX in *; lia). unfold W64, INT_MAX in *. lia.
  - rewrite !fmap_cons in *. rewrite join_cons in *. set (rest := join_dots _) in *.
    pose proof (len_nonneg (ram_getData iter r)). pose proof (len_nonneg rest).
    assert (Hlen' := Hlen). rewrite !len_app, len_cons in Hlen'.
    rewrite find_char_app by (auto; unfold W64, INT_MAX in *; lia).
    rewrite s32_id by (unfold INT_MIN; lia). replace (len pre + len (ram_getData iter r) - len pre) with (len (ram_getData iter r)) by lia.
    rewrite substr_mid by (unfold W64, INT_MAX in *; lia). cbn [rbind]. unfold int_of, in_int.
    replace ((INT_MIN <=? _) && _) with true by (unfold INT_MIN; lia). cbn [rbind].
    rewrite (ram_of_parts_ok iter) by (auto; lia). cbn [rbind].
    specialize (IH (pre ++ ram_getData iter r ++ ["."%char]) ltac:(congruence) Hall). fold rest in IH.
    replace ((pre ++ ram_getData iter r ++ ["."%char]) ++ rest) with (pre ++ ram_getData iter r ++ "."%char :: rest) in IH by (rewrite <- !app_assoc; reflexivity).
    rewrite !len_app, !len_cons, len_nil in IH.
    replace (len pre + (len (ram_getData iter r) + (1 + 0))) with (len pre + len (ram_getData iter r) + 1) in IH by lia.
    rewrite IH by lia. reflexivity.
Qed.
Lemma rams_of_file_ok iter f iz base : valid_iter iter -> forall rs, rs <> [] -> Forall (storable_ram iz base) rs ->
  len (join_dots (texts iter rs)) <= INT_MAX ->
  rams_of_file f (rbase_of iz base) (jints <$> (r_addresses <$> rs)) (join_dots (texts iter rs)) false = Ok rs.
Proof.
  intros Hi. induction rs as [|r rs IH]; intros Hne Hall Hlen; [congruence|]. unfold texts in *. rewrite !fmap_cons in *.
  apply Forall_cons in Hall as [Hr Hall]. cbn [rams_of_file].
  assert (Hd : "."%char ∉ ram_getData iter r) by apply ram_text_no_dot.
  destruct rs as [|r2 rs].
  - cbn [fmap list_fmap join_dots] in *. rewrite getline_end by exact Hd. rewrite (ram_of_parts_ok iter) by auto. reflexivity.
  - rewrite !fmap_cons in *. rewrite join_cons in *. rewrite getline_app by exact Hd.
    pose proof (len_nonneg (ram_getData iter r)).
    assert (Hlen' := Hlen). rewrite len_app, len_cons in Hlen'. pose proof (len_nonneg (join_dots (ram_getData iter r2 :: (ram_getData iter <$> rs)))).
    rewrite (ram_of_parts_ok iter) by (auto; lia). cbn [rbind].
    rewrite IH by (auto; lia). reflexivity.
Qed.

Lemma has_suffix_app p suf : len (p ++ suf) < W64 -> has_suffix (p ++ suf) suf = Ok true.
Proof.
  intros H. pose proof (len_nonneg p). pose proof (len_nonneg suf). rewrite len_app in H. rewrite has_suffix_long by (rewrite len_app; lia). f_equal.
  rewrite len_app. replace (len p + len suf - len suf) with (len p) by lia. rewrite drop_len. apply bool_decide_eq_true. reflexivity.
Qed.
Lemma jvalues_jintss m : jvalues (jintss m) = jints <$> m. Proof. reflexivity. Qed.

Lemma setRAMs_mem iter f iz base rs : valid_iter iter -> rs <> [] -> Forall (storable_ram iz base) rs ->
  len (join_dots (texts iter rs)) <= INT_MAX ->
  setRAMsData f (jintss (r_addresses <$> rs)) (rbase_of iz base) (join_dots (texts iter rs)) = Ok rs.
Proof.
  intros Hi Hne Hall Hlen. pose proof (texts_seg iter iz base rs Hi Hall) as Hseg. unfold setRAMsData. rewrite has_suffix_join.
  - cbn [rbind]. rewrite jvalues_jintss. exact (rams_of_data_ok iter f iz base Hi rs [] Hne Hall Hlen).
  - unfold texts. destruct rs; [congruence|discriminate].
  - eapply Forall_impl; [exact Hseg|]. intros s [H1 H2]. split; [exact H1|]. change (len ramdata_sufix) with 6. lia.
  - apply ramdata_sufix_dot.
  - unfold W64, INT_MAX in *. lia.
Qed.
Lemma setRAMs_file iter f iz base rs name : valid_iter iter -> rs <> [] -> Forall (storable_ram iz base) rs ->
  len (join_dots (texts iter rs)) <= INT_MAX -> len (name ++ ramdata_sufix) < W64 ->
  fs_read f (name ++ ramdata_sufix) = Some (join_dots (texts iter rs)) ->
  setRAMsData f (jintss (r_addresses <$> rs)) (rbase_of iz base) (name ++ ramdata_sufix) = Ok rs.
Proof.
  intros Hi Hne Hall Hlen Hn E. unfold setRAMsData. rewrite has_suffix_app by exact Hn. cbn [rbind]. rewrite E, jvalues_jintss.
  exact (rams_of_file_ok iter f iz base Hi rs Hne Hall Hlen).
Qed.

(** the JSON object of one discriminator *)
Lemma disc_of_value f d data iz base : is_int (d_entrySize d) -> is_int (d_count d) ->
  match d_rams d with [] => False | r :: _ => r_ignoreZero r = iz /\ r_base r = base end ->
  disc_of_json f (json_value d data) =
    (let* rams := setRAMsData f (jintss (disc_mapping d)) (rbase_of iz base) data in Ok (Disc (d_entrySize d) (d_count d) rams)).
Proof.
  intros He Hc. unfold json_value. destruct (d_rams d) as [|r rs] eqn:E; [intros []|]. intros [Hz Hb].
  generalize (jintss (disc_mapping d)) as m. intros m. unfold disc_of_json.
  change (jfield _ (lit "entrySize")) with (@Ok json (JInt (d_entrySize d))). cbn [rbind jget_int]. rewrite s32_id by exact He.
  change (jfield _ (lit "count")) with (@Ok json (JInt (d_count d))). cbn [rbind jget_int]. rewrite s32_id by exact Hc.
  change (jfield _ (lit "data")) with (@Ok json (JStr data)). cbn [rbind jget_str].
  change (jfield _ (lit "mapping")) with (@Ok json m). cbn [rbind].
  change (jfield _ (lit "ignoreZero")) with (@Ok json (JBool (r_ignoreZero r))). cbn [rbind].
  change (jfield _ (lit "base")) with (@Ok json (JInt (r_base r))). cbn [rbind]. rewrite Hz, Hb. reflexivity.
Qed.
Lemma storable_head iter d : storable iter d -> exists iz base, Forall (storable_ram iz base) (d_rams d) /\
  match d_rams d with [] => False | r :: _ => r_ignoreZero r = iz /\ r_base r = base end.
Proof.
  intros (_ & _ & Hne & (iz & base & Hall) & _). exists iz, base. split; [exact Hall|].
  destruct (d_rams d); [congruence|]. apply Forall_cons in Hall as [Hr _]. split; apply Hr.
Qed.

Lemma alphabet_ascii c : in_alphabet c \/ c = pad -> byte c < 128.
Proof.
  intros [[v [Hv ->]]| ->]; [|vm_compute; reflexivity].
  assert (in64 v = true) as Hi by (unfold in64; lia). clear Hv. apply Z.ltb_lt. revert v Hi.
  apply (in64_cases (fun v => byte (rfc_char v) <? 128)). vm_compute. reflexivity.
Qed.
Lemma join_forall (P : ascii -> Prop) segs : P "."%char -> Forall (Forall P) segs -> Forall P (join_dots segs).
Proof.
  intros Hd H. induction H as [|s segs Hs H IH]; [constructor|]. destruct segs as [|s2 segs]; [exact Hs|]. rewrite join_cons.
  apply Forall_app. split; [exact Hs|]. constructor; [exact Hd|exact IH].
Qed.
Lemma texts_utf8 iter rs : utf8_ok (join_dots (texts iter rs)) = true.
Proof.
  apply utf8_ascii, join_forall; [vm_compute; reflexivity|]. unfold texts. apply Forall_fmap, Forall_true. intros r. unfold compose, ram_getData, ram_text.
  eapply Forall_impl; [apply encode_charset|]. intros c. apply alphabet_ascii.
Qed.

Lemma data_mem iter rnd f d path : valid_iter iter -> storable iter d ->
  getRAMsData iter rnd f d false path = (join_dots (texts iter (d_rams d)), f).
Proof.
  intros Hi Hs. destruct (storable_head iter d Hs) as (iz & base & Hall & _). unfold getRAMsData. f_equal. apply mem_join.
  eapply Forall_impl; [exact (texts_seg iter iz base _ Hi Hall)|]. intros s [_ H]. exact H.
Qed.
Lemma disc_eta d : Disc (d_entrySize d) (d_count d) (d_rams d) = d. Proof. destruct d. reflexivity. Qed.

Lemma roundtrip_mem iter rnd f d path : valid_iter iter -> storable iter d ->
  exists j, disc_json iter rnd f d false path = (Ok j, f) /\ forall f', disc_of_json f' j = Ok d.
Proof.
  intros Hi Hs. exists (json_value d (join_dots (texts iter (d_rams d)))).
  pose proof (data_mem iter rnd f d path Hi Hs) as E. split.
  - rewrite disc_json_nf; rewrite E; [reflexivity|apply texts_utf8].
  - intros f'. destruct (storable_head iter d Hs) as (iz & base & Hall & Hh). destruct Hs as (He & Hc & Hne & _ & Hl).
    rewrite (disc_of_value f' d _ iz base He Hc Hh). unfold disc_mapping. rewrite (setRAMs_mem iter) by assumption. cbn [rbind]. rewrite disc_eta. reflexivity.
Qed.
Lemma roundtrip_file iter rnd f d path : valid_iter iter -> storable iter d ->
  utf8_ok (path ++ rnd ++ ramdata_sufix) = true -> len (path ++ rnd ++ ramdata_sufix) < W64 ->
  fs_writable f (path ++ rnd ++ ramdata_sufix) = true -> fs_read f (path ++ rnd ++ ramdata_sufix) = None ->
  exists j f', disc_json iter rnd f d true path = (Ok j, f') /\ disc_of_json f' j = Ok d.
Proof.
  intros Hi Hs Hu Hn Hw Hr. set (name := path ++ rnd ++ ramdata_sufix) in *.
  exists (json_value d name), (fs_append f name (ramsdata_file iter (d_rams d))). split.
  - rewrite disc_json_nf; unfold getRAMsData; cbn [fst snd]; [reflexivity|exact Hu].
  - destruct (storable_head iter d Hs) as (iz & base & Hall & Hh). destruct Hs as (He & Hc & Hne & _ & Hl).
    rewrite (disc_of_value _ d name iz base He Hc Hh). unfold disc_mapping.
    assert (En : name = (path ++ rnd) ++ ramdata_sufix) by (unfold name; rewrite <- app_assoc; reflexivity).
    rewrite En at 2. rewrite (setRAMs_file iter); auto.
    + cbn [rbind]. rewrite disc_eta. reflexivity.
    + rewrite <- En. exact Hn.
    + rewrite <- En. unfold fs_append. rewrite Hw. unfold fs_read in *. cbn [fs_files]. rewrite lookup_insert, Hr, file_join. reflexivity.
Qed.

Lemma ram_text_size iter m : valid_iter iter -> len (ram_text iter m) = 16 * Z.of_nat (size m).
Proof.
  intros Hi. unfold ram_text. rewrite encode_length4, ram_bytes_length, iter_len by exact Hi.
  replace (12 * Z.of_nat (size m) + 2) with (2 + 4 * Z.of_nat (size m) * 3) by lia. rewrite Z.div_add by lia. change (2 / 3) with 0. lia.
Qed.
Lemma texts_size iter d : valid_iter iter -> d_rams d <> [] -> len (join_dots (texts iter (d_rams d))) + 1 = saved_size d.
Proof.
  intros Hi. unfold saved_size, texts. induction (d_rams d) as [|r rs IH]; [congruence|]. intros _. rewrite !fmap_cons. cbn [zsum foldr].
  destruct rs as [|r2 rs].
  - cbn [fmap list_fmap join_dots zsum foldr]. unfold ram_getData. rewrite ram_text_size by exact Hi. cbn. lia.
  - rewrite fmap_cons, join_cons, len_app, len_cons. rewrite <- fmap_cons. specialize (IH ltac:(congruence)). unfold ram_getData at 1. rewrite ram_text_size by exact Hi.
    unfold zsum in *. cbn [foldr]. lia.
Qed.
