(** Property theorems C181: sessions of a Discriminator that is kept in files. *)
From Verif Require Import Prelude Bytes Base64 Bleaching Utils BinInput Json Fs RamData Ram Disc DataSet Wisard.
From Verif Require Import SpecBin SpecDisc SpecBleach SpecWisard SpecValues SpecSaved SpecUtf8 Utf8Proofs RamDataProofs TextProofs BinProofs UtilsProofs DiscCtorProofs CtorFacts JsonNF RamProofs DiscProofs DiscFacts WisardFacts JsonProofs JsonFacts WisardJson WisardSaved SizesClus.
From Verif Require Import PropsWisard PropsDefined PropsDefinedSaved PropsSavedExact PropsSessions PropsDisc PropsJson PropsDiscSessions.

(** The file json(huge) writes for the random name r. *)
Definition data_file (path r : str) : str := path ++ r ++ lit ".wdpkg".
(** Sessions: the calls of each, going on after exceptions, then json(huge=True) under a random name and a
    new Discriminator from the text; the files are threaded through. *)
Fixpoint huge_sessions (iter : iteration) (path : str) (f : fs) (d : disc) (ss : list (list dop * str)) : res ((list (res unit) * disc) * fs) :=
  match ss with
  | [] => Ok (([], d), f)
  | (h, r) :: ss => let '(os, v) := outcomes dstep d h in
      let '(rj, f1) := disc_json iter r f v true path in
      let* j := rj in let* d' := disc_of_json f1 j in
      let* p := huge_sessions iter path f1 d' ss in Ok ((os ++ fst (fst p), snd (fst p)), snd p)
  end.
(** A name that can be used: UTF-8, no file of that name yet, and it may be created. *)
Definition free_name (f : fs) (n : str) : Prop := is_utf8 n /\ len n < W64 /\ fs_writable f n = true /\ fs_read f n = None.

Lemma json_writes iter r f d path j f1 : utf8_ok (data_file path r) = true -> disc_json iter r f d true path = (Ok j, f1) -> exists c, f1 = fs_append f (data_file path r) c.
Proof.
  intros Hu E. rewrite disc_json_nf in E; unfold getRAMsData in *; cbn [fst snd] in *; [|exact Hu]. injection E as _ <-. eexists. reflexivity.
Qed.
Lemma append_other f n c m : n <> m -> fs_read (fs_append f n c) m = fs_read f m.
Proof. intros Hn. unfold fs_append, fs_read. destruct (fs_writable f n); [|reflexivity]. cbn. apply lookup_insert_ne, Hn. Qed.
Lemma append_writable f n c m : fs_writable (fs_append f n c) m = fs_writable f m.
Proof. unfold fs_append. destruct (fs_writable f n); reflexivity. Qed.
Lemma name_inj path r r' : data_file path r = data_file path r' -> r = r'.
Proof. unfold data_file. intros E. apply app_inv_head in E. apply app_inv_tail in E. exact E. Qed.
Lemma live_huge iter r f path N iz base d : good_iter iter -> is_int base -> 0 <= N <= INT_MAX -> live N iz base d -> filled d -> saved_size d <= INT_MAX + 1 -> free_name f (data_file path r) ->
  exists j c, disc_json iter r f d true path = (Ok j, fs_append f (data_file path r) c) /\ disc_of_json (fs_append f (data_file path r) c) j = Ok d.
Proof.
  intros Hi Hb HN (Hs & Hk & _ & _) [Hne Hf] Hz (Hu & Hl & Hw & Hr). apply utf8_ok_iff in Hu.
  destruct (sound_storable iter (setup_of iz base) N d Hi Hb HN Hk Hs Hne Hf Hz) as [Hst _].
  destruct (roundtrip_file iter r f d path Hi Hst Hu Hl Hw Hr) as (j & f1 & E & El). destruct (json_writes iter r f d path j f1 Hu E) as (c & ->). eauto.
Qed.

(** C181: sessions that end with json(huge=True) and begin with Discriminator(text) do exactly what one
    uninterrupted program does, outcomes included, if every name is new and a training call was answered
    before the first save; the files that existed before are untouched. *)
Theorem C181_sessions : forall iter path f d0 h r ss,
  good_iter iter -> constructed d0 -> wired_inside d0 ->
  let hs := (h, r) :: ss in
  Forall (fun o => readable (dop_image o)) (List.concat (fst <$> hs)) -> len (List.concat (fst <$> hs)) <= INT_MAX ->
  (exists x, (Train x, Ok tt) ∈ zip h (fst (outcomes dstep d0 h))) ->
  (forall before after, ss = before ++ after -> saved_size (snd (outcomes dstep d0 (h ++ List.concat (fst <$> before)))) <= INT_MAX + 1) ->
  NoDup (snd <$> hs) -> Forall (fun r => free_name f (data_file path r)) (snd <$> hs) ->
  exists f', huge_sessions iter path f d0 hs = Ok (outcomes dstep d0 (List.concat (fst <$> hs)), f') /\
    forall n s, fs_read f n = Some s -> fs_read f' n = Some s.
Proof.
  intros iter path f d0 h r ss Hi Hc Hw hs Hh HM Ht Hz Hnd Hfree. subst hs. destruct (constructed_live d0 Hc Hw) as (iz & base & Hb & Hl0).
  assert (Hgo : forall ss h r N f d, Forall (fun o => readable (dop_image o)) (h ++ List.concat (fst <$> ss)) -> 0 <= N -> N + len (h ++ List.concat (fst <$> ss)) <= INT_MAX -> live N iz base d ->
    (filled d \/ exists x, (Train x, Ok tt) ∈ zip h (fst (outcomes dstep d h))) ->
    (forall before after, ss = before ++ after -> saved_size (snd (outcomes dstep d (h ++ List.concat (fst <$> before)))) <= INT_MAX + 1) ->
    NoDup (r :: (snd <$> ss)) -> Forall (fun r => free_name f (data_file path r)) (r :: (snd <$> ss)) ->
    exists f', huge_sessions iter path f d ((h, r) :: ss) = Ok (outcomes dstep d (h ++ List.concat (fst <$> ss)), f') /\ forall n s, fs_read f n = Some s -> fs_read f' n = Some s).
  { clear h r ss f Hh HM Ht Hz Hnd Hfree. induction ss as [|[h2 r2] ss IH]; intros h r N f d Hh HN HM Hl Ht Hz Hnd Hfree; apply Forall_app in Hh as [Hh1 Hh2]; rewrite len_app in HM; pose proof (len_nonneg h);
      (match type of HM with _ + (_ + ?q) <= _ => assert (0 <= q) by apply len_nonneg end); (assert (HNh : N + len h <= INT_MAX) by lia);
      pose proof (ops_live iz base h N d Hh1 HN HNh Hl) as H1; apply Forall_cons in Hfree as [Hf0 Hfree]; apply NoDup_cons in Hnd as [Hr0 Hnd].
    - specialize (Hz [] [] eq_refl). rewrite fmap_nil in *. cbn [List.concat] in *. rewrite app_nil_r in *. cbn [huge_sessions]. destruct (outcomes dstep d h) as [os v]. destruct H1 as (_ & H2 & H3 & H4). cbn [fst snd] in *.
      assert (Hfv : filled v) by (destruct Ht as [Ht|Ht]; [apply H3, Ht|apply H4, Ht]).
      destruct (live_huge iter r f path (N + len h) iz base v Hi Hb ltac:(lia) H2 Hfv Hz Hf0) as (j & c & E & El). rewrite E. cbn [rbind]. rewrite El. cbn [rbind fst snd]. rewrite app_nil_r.
      eexists. split; [reflexivity|]. intros n s Hs. rewrite append_other; [exact Hs|]. intros <-. destruct Hf0 as (_ & _ & _ & Hn). congruence.
    - pose proof (Hz [] ((h2, r2) :: ss) eq_refl) as Hz0. rewrite fmap_nil in Hz0. cbn [List.concat] in Hz0. rewrite app_nil_r in Hz0. change (fst <$> (h2, r2) :: ss) with (h2 :: (fst <$> ss)) in *. change (snd <$> (h2, r2) :: ss) with (r2 :: (snd <$> ss)) in *. cbn [List.concat] in HM, Hh2 |- *.
      assert (Hsv : Forall served (fst (outcomes dstep d h))) by (destruct (outcomes dstep d h); apply H1).
      rewrite (outcomes_app dstep h (h2 ++ List.concat (fst <$> ss)) d Hsv).
      assert (Hz' : forall before after, ss = before ++ after -> saved_size (snd (outcomes dstep (snd (outcomes dstep d h)) (h2 ++ List.concat (fst <$> before)))) <= INT_MAX + 1).
      { intros before after E. specialize (Hz ((h2, r2) :: before) after ltac:(rewrite E; reflexivity)). rewrite fmap_cons in Hz. cbn [fst List.concat] in Hz. rewrite (outcomes_app dstep h _ d Hsv) in Hz. exact Hz. }
      change (huge_sessions iter path f d ((h, r) :: (h2, r2) :: ss)) with (let '(os, v) := outcomes dstep d h in
        let '(rj, f1) := disc_json iter r f v true path in let* j := rj in let* d' := disc_of_json f1 j in
        let* p := huge_sessions iter path f1 d' ((h2, r2) :: ss) in Ok ((os ++ fst (fst p), snd (fst p)), snd p)).
      destruct (outcomes dstep d h) as [os v]. cbn [fst snd] in *. destruct H1 as (_ & H2 & H3 & H4). assert (Hfv : filled v) by (destruct Ht as [Ht|Ht]; [apply H3, Ht|apply H4, Ht]).
      destruct (live_huge iter r f path (N + len h) iz base v Hi Hb ltac:(lia) H2 Hfv Hz0 Hf0) as (j & c & E & El). rewrite E. cbn [rbind]. rewrite El. cbn [rbind].
      destruct (IH h2 r2 (N + len h) (fs_append f (data_file path r) c) v Hh2 ltac:(lia) ltac:(lia) H2 (or_introl Hfv) Hz' Hnd) as (f' & E' & Hk).
      + rewrite Forall_forall in Hfree |- *. intros r' Hr'. destruct (Hfree r' Hr') as (A1 & A2 & A3 & A4). split; [exact A1|]. split; [exact A2|]. split; [rewrite append_writable; exact A3|]. rewrite append_other; [exact A4|].
        intros En. apply name_inj in En. subst r'. exact (Hr0 Hr').
      + rewrite E'. cbn [rbind fst snd]. eexists. split; [reflexivity|]. intros n s Hs. apply Hk. rewrite append_other; [exact Hs|]. intros <-. destruct Hf0 as (_ & _ & _ & Hn). congruence. }
  rewrite fmap_cons in *. cbn [fst snd List.concat] in *. apply (Hgo ss h r 0 f d0); auto; lia.
Qed.
Print Assumptions C181_sessions.

(** A file with an empty field is refused. *)
Lemma file_broken iter f iz base : good_iter iter -> forall rs, Forall (loose_ram iz base) rs -> (exists r, r ∈ rs /\ r_positions r = ∅) -> len (join_dots (texts iter rs)) <= INT_MAX ->
  rams_of_file f (rbase_of iz base) (jints <$> (r_addresses <$> rs)) (join_dots (texts iter rs)) false = Throw EOutOfRange.
Proof.
  intros Hi. induction rs as [|r rs IH]; intros Hall (r0 & Hr0 & He) Hlen; [inversion Hr0|]. unfold texts in *. rewrite !fmap_cons in *. apply Forall_cons in Hall as [Hr Hall]. cbn [rams_of_file].
  assert (Hd : "."%char ∉ ram_getData iter r) by apply ram_text_no_dot.
  assert (Hpart : len (ram_getData iter r) <= INT_MAX -> r_positions r <> ∅ -> ram_of_parts f (rbase_of iz base) (jints (r_addresses r)) (ram_getData iter r) = Ok r).
  { intros Hl Hf. apply (ram_of_parts_ok iter); auto. apply loose_storable. auto. }
  destruct rs as [|r2 rs].
  - cbn [fmap list_fmap join_dots] in *. rewrite getline_end by exact Hd. apply elem_of_list_singleton in Hr0. subst r0. rewrite (empty_data iter r Hi He), empty_part by exact Hr. reflexivity.
  - rewrite !fmap_cons in *. rewrite join_cons in *. rewrite getline_app by exact Hd. rewrite len_app, len_cons in Hlen.
    pose proof (len_nonneg (ram_getData iter r)). pose proof (len_nonneg (join_dots (ram_getData iter r2 :: (ram_getData iter <$> rs)))).
    destruct (decide (r_positions r = ∅)) as [E|E]; [rewrite (empty_data iter r Hi E), empty_part by exact Hr; reflexivity|]. rewrite Hpart by (auto; lia). cbn [rbind].
    rewrite IH; [reflexivity|exact Hall| |lia]. exists r0. split; [|exact He]. apply elem_of_cons in Hr0 as [-> |Hr0]; [contradiction|exact Hr0].
Qed.
(** C181, one save: whatever calls failed, the discriminator is saved under a free name and read back as
    itself when every RAM has learned something; otherwise the text is refused with std::out_of_range. *)
Theorem C181_saved_exactly : forall iter r f path d0 h,
  good_iter iter -> constructed d0 -> wired_inside d0 -> Forall (fun o => readable (dop_image o)) h -> len h <= INT_MAX -> free_name f (data_file path r) ->
  let '(os, d) := outcomes dstep d0 h in
  saved_size d <= INT_MAX + 1 ->
  exists j f', disc_json iter r f d true path = (Ok j, f') /\
    (Forall (fun r => r_positions r <> ∅) (d_rams d) -> disc_of_json f' j = Ok d) /\
    ((exists r, r ∈ d_rams d /\ r_positions r = ∅) -> disc_of_json f' j = Throw EOutOfRange) /\
    ((exists x, (Train x, Ok tt) ∈ zip h os) -> disc_of_json f' j = Ok d).
Proof.
  intros iter r f path d0 h Hi Hc Hw Hh HM Hfree. destruct (constructed_live d0 Hc Hw) as (iz & base & Hb & Hl). pose proof (ops_live iz base h 0 d0 Hh ltac:(lia) ltac:(lia) Hl) as H.
  destruct (outcomes dstep d0 h) as [os d]. destruct H as (_ & Hd & _ & Ht). intros Hz. pose proof (len_nonneg h). change (0 + len h) with (len h) in Hd.
  assert (Hok : filled d -> exists j c, disc_json iter r f d true path = (Ok j, fs_append f (data_file path r) c) /\ disc_of_json (fs_append f (data_file path r) c) j = Ok d).
  { intros Hf. exact (live_huge iter r f path (len h) iz base d Hi Hb ltac:(lia) Hd Hf Hz Hfree). }
  destruct Hd as (Hs & Hk & Hp & Hne). destruct Hfree as (Hu & Hl' & Hwr & Hrd). apply utf8_ok_iff in Hu.
  assert (E : disc_json iter r f d true path = (Ok (json_value d (data_file path r)), fs_append f (data_file path r) (ramsdata_file iter (d_rams d)))).
  { rewrite disc_json_nf; unfold getRAMsData; cbn [fst snd]; [reflexivity|exact Hu]. }
  eexists _, _. split; [exact E|].
  assert (A : Forall (fun r => r_positions r <> ∅) (d_rams d) -> disc_of_json (fs_append f (data_file path r) (ramsdata_file iter (d_rams d))) (json_value d (data_file path r)) = Ok d).
  { intros Hf. destruct (Hok (conj Hne Hf)) as (j & c & E2 & E3). rewrite E in E2. injection E2 as <- Ef. rewrite Ef. exact E3. }
  split; [exact A|]. split; [|intros K; apply A, (Ht K)]. intros Hbad.
  pose proof (texts_size iter d Hi Hne) as Hts. pose proof (sound_loose (setup_of iz base) (len h) d Hb ltac:(lia) Hk Hs) as HL. cbn [setup_of w_ignoreZero w_base] in HL.
  assert (Hv : match d_rams d with [] => False | r :: _ => r_ignoreZero r = iz /\ r_base r = base end).
  { destruct Hk as [_ Hk]. destruct (d_rams d) as [|r' rs]; [congruence|]. apply Forall_cons in Hk as [(K1 & K2 & _) _]. auto. }
  rewrite (disc_of_value _ d _ iz base); [|apply Hk|destruct Hs as (_ & Hcn & _); unfold is_int, INT_MIN, INT_MAX in *; lia|exact Hv].
  unfold setRAMsData. replace (data_file path r) with ((path ++ r) ++ ramdata_sufix) in * by (unfold data_file; rewrite <- app_assoc; reflexivity).
  rewrite has_suffix_app by exact Hl'. cbn [rbind]. unfold fs_append. rewrite Hwr. unfold fs_read in *. cbn [fs_files]. rewrite lookup_insert, Hrd, file_join. cbn [default app]. unfold disc_mapping. rewrite jvalues_jintss, (file_broken iter _ iz base Hi (d_rams d) HL Hbad) by lia. reflexivity.
Qed.
Print Assumptions C181_saved_exactly.
(** The hypotheses are met by three sessions with rejected calls, on a disk that has a file already. *)
Definition disk2 : fs := Fs {[ lit "dir/other.wdpkg" := lit "data" ]} (fun _ => true).
Definition later_h : list (list dop * str) := [([Untrain half_bad; Train img2], lit "Bb"); ([Train half_bad; Train img0], lit "Cc")].
Example C181_witness : Forall (fun o => readable (dop_image o)) (List.concat (fst <$> (first_s, lit "Aa") :: later_h)) /\
  (exists x, (Train x, Ok tt) ∈ zip first_s (fst (outcomes dstep demo first_s))) /\
  (forall before after, later_h = before ++ after -> saved_size (snd (outcomes dstep demo (first_s ++ List.concat (fst <$> before)))) <= INT_MAX + 1) /\
  NoDup (snd <$> (first_s, lit "Aa") :: later_h) /\ Forall (fun r => free_name disk2 (data_file (lit "dir/") r)) (snd <$> (first_s, lit "Aa") :: later_h) /\
  fst (outcomes dstep demo (List.concat (fst <$> (first_s, lit "Aa") :: later_h))) = [Throw pos_exn; Throw entry_exn; Ok tt; Throw pos_exn; Ok tt; Throw pos_exn; Ok tt] /\
  fs_read disk2 (lit "dir/other.wdpkg") = Some (lit "data").
Proof.
  assert (A : saved_size (snd (outcomes dstep demo (first_s ++ List.concat (fst <$> (@nil (list dop * str)))))) <= INT_MAX + 1) by (vm_compute; discriminate).
  assert (B : saved_size (snd (outcomes dstep demo (first_s ++ List.concat (fst <$> [([Untrain half_bad; Train img2], lit "Bb")])))) <= INT_MAX + 1) by (vm_compute; discriminate).
  assert (C : saved_size (snd (outcomes dstep demo (first_s ++ List.concat (fst <$> later_h)))) <= INT_MAX + 1) by (vm_compute; discriminate).
  split. { change (List.concat (fst <$> (first_s, lit "Aa") :: later_h)) with (first_s ++ List.concat later_s). apply C179_witness. }
  split; [apply C179_witness|]. split.
  { intros before after E. destruct (prefixes2 _ _ before after E) as [-> | [-> | ->]]; [exact A|exact B|exact C]. }
  split. { change (snd <$> (first_s, lit "Aa") :: later_h) with [lit "Aa"; lit "Bb"; lit "Cc"]. refine (bool_decide_unpack _ _). vm_compute. exact I. }
  split. { change (snd <$> (first_s, lit "Aa") :: later_h) with [lit "Aa"; lit "Bb"; lit "Cc"]. repeat (apply Forall_cons; split; [split; [apply utf8_ok_iff; vm_compute; reflexivity|]; split; [vm_compute; reflexivity|]; split; reflexivity|]). constructor. }
  split; [vm_compute; reflexivity|reflexivity].
Qed.
