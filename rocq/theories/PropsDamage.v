(** Property theorems C163 (and C117, C123 for a Wisard): the data files of json(true,path) after
    something happened to some of them. *)
From Verif Require Import Prelude Bytes Base64 Utils BinInput Bleaching Ram Json Fs RamData Disc Wisard Crash SpecBin SpecDisc SpecBleach SpecWisard SpecSaved SpecUtf8 SpecCrash.
From Verif Require Import BytesProofs TextProofs RamDataProofs DiscCtorProofs CtorFacts JsonNF DiscFacts BleachProofs WisardProofs WisardFacts JsonProofs JsonFacts WisardJson WisardSaved CrashProofs Utf8Proofs PropsDisc PropsWisard PropsJson.

(** Loading the classes one by one. *)
Lemma load_any (f : fs) (dc : json) (iter : iteration) (rnd : str -> str) (huge : bool) (path : str) (l : list (str * disc)) : forall m : gmap str disc, NoDup l.*1 ->
  let L kd := disc_of_json f (merge_patch (class_value kd.2 (class_data iter rnd huge path kd.1 kd.2)) dc) in
  match load_classes f dc (members iter rnd huge path l) m with
  | Ok m' => (forall kd : str * disc, kd ∈ l -> exists d', L kd = Ok d' /\ m' !! kd.1 = Some d') /\ (forall k : str, k ∉ l.*1 -> m' !! k = m !! k)
  | Throw e => exists kd : str * disc, kd ∈ l /\ L kd = Throw e
  | UB u => exists kd : str * disc, kd ∈ l /\ L kd = UB u
  | Hang => exists kd : str * disc, kd ∈ l /\ L kd = Hang
  end.
Proof.
  cbv zeta. unfold members. induction l as [|[k d] l IH]; intros m Hn; [split; [intros kd H; apply elem_of_nil in H; contradiction|reflexivity]|].
  rewrite fmap_cons in *. apply NoDup_cons in Hn as [Hk Hn]. cbn [fst snd] in *. cbn [load_classes].
  destruct (disc_of_json f (merge_patch (class_value d (class_data iter rnd huge path k d)) dc)) as [d'|e|u|] eqn:E; cbn [rbind].
  - specialize (IH (<[k := d']> m) Hn). destruct (load_classes _ _ _ _) as [m'|e|u|].
    + destruct IH as [A B]. split.
      * intros kd H. apply elem_of_cons in H as [-> |H]; [|apply A, H]. exists d'. split; [exact E|]. cbn [fst]. rewrite (B k Hk). apply lookup_insert.
      * intros k' H. apply not_elem_of_cons in H as [H1 H2]. rewrite (B k' H2). apply lookup_insert_ne. cbn in H1. congruence.
    + destruct IH as (kd & H & E'). exists kd. split; [right; exact H|exact E'].
    + destruct IH as (kd & H & E'). exists kd. split; [right; exact H|exact E'].
    + destruct IH as (kd & H & E'). exists kd. split; [right; exact H|exact E'].
  - exists (k, d). split; [left|exact E].
  - exists (k, d). split; [left|exact E].
  - exists (k, d). split; [left|exact E].
Qed.

(** What is read from a data file of which only the first k bytes are left. *)
Lemma set_cut k iter f name d iz base : valid_iter iter -> Forall (storable_ram iz base) (d_rams d) -> d_rams d <> [] -> len (join_dots (texts iter (d_rams d))) <= INT_MAX ->
  len (name ++ ramdata_sufix) < W64 -> fs_read f (name ++ ramdata_sufix) = Some (take k (ramsdata_file iter (d_rams d))) ->
  exists n, whole_items ram_size (Z.of_nat k) (d_rams d) n /\
    match setRAMsData f (jintss (r_addresses <$> d_rams d)) (rbase_of iz base) (name ++ ramdata_sufix) with
    | Ok rs => rs = take n (d_rams d) \/ exists r r', d_rams d !! n = Some r /\ part_of r' r /\ rs = take n (d_rams d) ++ [r']
    | Throw e => (n < length (d_rams d))%nat /\ e = EOutOfRange
    | UB u => (n < length (d_rams d))%nat /\ u = UBIndex
    | Hang => False
    end.
Proof.
  intros Hi Hall Hne Hl Hn Hread. rewrite file_join in Hread.
  assert (Hsz : Forall (fun r => len (ram_getData iter r) = ram_size r) (d_rams d)) by (apply Forall_true; intros r; apply ram_text_size, Hi).
  destruct (cut_join (texts iter (d_rams d))) with (k := k) as (n & t & s & E & Ht & Et & Hcase); [unfold texts; destruct (d_rams d); [congruence|discriminate]|].
  pose proof E as E'. unfold texts in E'. rewrite list_lookup_fmap in E'. destruct (d_rams d !! n) as [r|] eqn:Er; [|discriminate]. cbn in E'. injection E' as <-.
  pose proof (lookup_lt_Some _ _ _ Er) as Hlt.
  assert (Hst : storable_ram iz base r) by (rewrite Forall_lookup in Hall; exact (Hall n r Er)).
  assert (Hlr : len (ram_getData iter r) <= INT_MAX).
  { assert (ram_getData iter r ∈ texts iter (d_rams d)) as Hin by (apply elem_of_list_lookup; exists n; exact E). pose proof (join_len_ge _ _ Hin). lia. }
  exists (if decide (t = ram_getData iter r) then S n else n). split.
  { destruct Hcase as [[Hc1 W]|[Hc1 W]]; (destruct (decide _) as [Hd|Hd]; [|]); try contradiction; eapply whole_items_of; eassumption. }
  unfold setRAMsData. rewrite has_suffix_app by exact Hn. cbn [rbind]. rewrite Hread, Et. rewrite jvalues_jintss.
  replace (take n (texts iter (d_rams d))) with (texts iter (take n (d_rams d))) by (unfold texts; apply fmap_take).
  rewrite (rams_of_file_cut iter f iz base Hi (d_rams d) n r t Er Hall Hl); [|eapply prefix_notin; [exact Ht|apply ram_text_no_dot]].
  destruct (decide (t = ram_getData iter r)) as [-> |Hne2].
  - rewrite (ram_of_parts_ok iter) by auto. cbn [rbind]. left. symmetry. apply take_S_r. exact Er.
  - destruct (ram_of_parts_cut iter f iz base r t Hi Hst Ht Hlr) as [-> | [-> | (r' & -> & Hp)]]; cbn [rbind].
    + split; [exact Hlt|reflexivity].
    + split; [exact Hlt|reflexivity].
    + right. exists r, r'. auto.
Qed.

Definition data_file (path : str) (rnd : str -> str) (l : str) : str := path ++ l ++ lit "__" ++ rnd l ++ lit ".wdpkg".

(** All that C163, C117 and C123 need, of a savable state. *)
Lemma wisard_damage iter rnd f w path : valid_iter iter -> int_options w -> savable iter w -> (forall k, length (rnd k) = 10%nat) ->
  (forall l, is_Some (w_discriminators w !! l) -> utf8_ok l = true /\
     utf8_ok (data_file path rnd l) = true /\ len (data_file path rnd l) < W64 /\ fs_writable f (data_file path rnd l) = true /\ fs_read f (data_file path rnd l) = None) ->
  exists j f', wisard_json iter rnd f w true path = (Ok j, f') /\
    (forall l d, w_discriminators w !! l = Some d -> fs_read f' (data_file path rnd l) = Some (ramsdata_file iter (d_rams d))) /\
    forall f2, exists L : str -> disc -> res disc,
    (forall l d, w_discriminators w !! l = Some d -> L l d = (let* rams := setRAMsData f2 (jintss (r_addresses <$> d_rams d)) (rbase_of (w_ignoreZero w) (w_base w)) (data_file path rnd l) in Ok (Disc (d_entrySize d) (d_count d) rams))) /\
    (forall l d, w_discriminators w !! l = Some d -> fs_read f2 (data_file path rnd l) = fs_read f' (data_file path rnd l) -> L l d = Ok d) /\
    match wisard_of_json f2 j with
    | Ok w2 => with_discriminators w2 ∅ = with_discriminators (without_mapping w) ∅ /\
        (forall l, match w_discriminators w !! l with Some d => exists d', L l d = Ok d' /\ w_discriminators w2 !! l = Some d' | None => w_discriminators w2 !! l = None end)
    | Throw e => exists l d, w_discriminators w !! l = Some d /\ L l d = Throw e
    | UB u => exists l d, w_discriminators w !! l = Some d /\ L l d = UB u
    | Hang => exists l d, w_discriminators w !! l = Some d /\ L l d = Hang
    end.
Proof.
  intros Hi Ho Hs Hr Hu. exists (wisard_value w (obj (members iter rnd true path (sorted_items (w_discriminators w))))), (foldl (class_fs iter rnd true path) f (sorted_items (w_discriminators w))).
  split; [rewrite wisard_json_nf; [reflexivity|]; intros l d E; destruct (Hu l ltac:(eauto)) as [H1 [H2 _]]; split; [exact H1|exact H2]|].
  assert (Hfile : forall l d, w_discriminators w !! l = Some d -> fs_read (foldl (class_fs iter rnd true path) f (sorted_items (w_discriminators w))) (data_file path rnd l) = Some (ramsdata_file iter (d_rams d))).
  { intros l d E. apply (class_fs_read iter rnd path _ f (sorted_items_nodup _) Hr) with (kd := (l, d)); [|apply sorted_items_elem; exact E].
    intros [k' d'] Hk'. apply sorted_items_elem in Hk'. cbn [fst]. destruct (Hu k' ltac:(eauto)) as (_ & _ & _ & H1 & H2). split; [exact H1|exact H2]. }
  split; [exact Hfile|]. intros f2.
  exists (fun l d => disc_of_json f2 (merge_patch (class_value d (class_data iter rnd true path l d)) (rbase_of (w_ignoreZero w) (w_base w)))).
  assert (HL : forall l d, w_discriminators w !! l = Some d -> disc_of_json f2 (merge_patch (class_value d (class_data iter rnd true path l d)) (rbase_of (w_ignoreZero w) (w_base w))) =
    (let* rams := setRAMsData f2 (jintss (r_addresses <$> d_rams d)) (rbase_of (w_ignoreZero w) (w_base w)) (data_file path rnd l) in Ok (Disc (d_entrySize d) (d_count d) rams))).
  { intros l d E. destruct (Hs l d E) as [(He & Hc & _) _]. rewrite class_of_value by assumption. reflexivity. }
  split; [exact HL|]. split.
  - intros l d E Hsame. rewrite (HL l d E). rewrite (Hfile l d E) in Hsame. destruct (Hs l d E) as [(He & Hc & Hne & _ & Hl) Hall]. destruct (Hu l ltac:(eauto)) as (_ & _ & Hn & _).
    assert (En : data_file path rnd l = (path ++ l ++ lit "__" ++ rnd l) ++ ramdata_sufix) by (unfold data_file; rewrite <- !app_assoc; reflexivity).
    rewrite En in *. rewrite (setRAMs_file iter); auto.
    + cbn [rbind]. rewrite disc_eta. reflexivity.
    + rewrite Hsame. rewrite file_join. reflexivity.
  - rewrite wisard_of_value_gen by exact Ho. rewrite jmembers_obj. cbn [rbind].
    pose proof (load_any f2 (rbase_of (w_ignoreZero w) (w_base w)) iter rnd true path (sorted_items (w_discriminators w)) ∅ (sorted_items_nodup _)) as H. cbv zeta in H.
    destruct (load_classes _ _ _ _) as [m'|e|u|]; cbn [rbind].
    + destruct H as [A B]. split; [reflexivity|]. intros l. cbn [with_discriminators w_discriminators]. destruct (w_discriminators w !! l) as [d|] eqn:E.
      * apply (A (l, d)). apply sorted_items_elem. exact E.
      * rewrite B; [apply lookup_empty|]. intros Hin. apply elem_of_list_fmap in Hin as ([l' d] & -> & Hin). apply sorted_items_elem in Hin. cbn [fst] in E. congruence.
    + destruct H as ([l d] & Hin & E). apply sorted_items_elem in Hin. eauto.
    + destruct H as ([l d] & Hin & E). apply sorted_items_elem in Hin. eauto.
    + destruct H as ([l d] & Hin & E). apply sorted_items_elem in Hin. eauto.
Qed.

(** C163: save a Wisard with json(true,path) and let f2 be any later state of the file system. If the
    text can be loaded, the options are those saved, the labels too, and each label whose own file is
    unchanged has exactly the discriminator it had, whatever happened to the other files. It can fail
    to load only if the file of some label exists and was changed. *)
Theorem C163_damage : forall iter rnd lhs_first w0 n cs w f path,
  good_iter iter -> w_discriminators w0 = ∅ -> configured w0 n -> Forall (proper_call w0 n) cs ->
  len (all_examples cs) <= INT_MAX -> int_options w0 -> some_rams w0 -> wrun lhs_first w0 cs = (Ok tt, w) ->
  (forall l d, w_discriminators w !! l = Some d -> is_utf8 l /\ saved_size d <= INT_MAX + 1) ->
  (forall k, length (rnd k) = 10%nat) ->
  let name l := path ++ l ++ lit "__" ++ rnd l ++ lit ".wdpkg" in
  (forall l, is_Some (w_discriminators w !! l) ->
     is_utf8 (name l) /\ len (name l) < W64 /\ fs_writable f (name l) = true /\ fs_read f (name l) = None) ->
  exists j f', wisard_json iter rnd f w true path = (Ok j, f') /\
    forall f2, let intact l := fs_read f2 (name l) = fs_read f' (name l) in
    match wisard_of_json f2 j with
    | Ok w2 => with_discriminators w2 ∅ = with_discriminators (without_mapping w) ∅ /\
        forall l, (is_Some (w_discriminators w2 !! l) <-> is_Some (w_discriminators w !! l)) /\
          (intact l -> w_discriminators w2 !! l = w_discriminators w !! l)
    | _ => exists l, is_Some (w_discriminators w !! l) /\ ~ intact l /\ fs_read f2 (name l) <> None
    end.
Proof.
  cbv zeta. setoid_rewrite <- utf8_ok_iff. intros iter rnd lhs w0 n cs w f path Hi H0 Hc Hp Hm Ho Hs E Hlab Hr Hf.
  destruct (reach_savable iter lhs w0 n cs w Hi H0 Hc Hp Hm Ho Hs E) as [H2 H1]; [intros l d El; apply (Hlab l d El)|].
  destruct (wisard_damage iter rnd f w path Hi H1 H2 Hr) as (j & f' & Ej & Hfile & Hd).
  { intros l [d El]. split; [apply (Hlab l d El)|]. apply Hf. eauto. }
  exists j, f'. split; [exact Ej|]. intros f2. destruct (Hd f2) as (L & HL & Hin & Hm2).
  assert (Hbad : forall l d, w_discriminators w !! l = Some d -> (forall d', L l d <> Ok d') -> exists l, is_Some (w_discriminators w !! l) /\ fs_read f2 (data_file path rnd l) <> fs_read f' (data_file path rnd l) /\ fs_read f2 (data_file path rnd l) <> None).
  { intros l d El Hno. exists l. split; [eauto|]. split; [intros K; apply (Hno d), Hin; assumption|]. intros K. rewrite (HL l d El) in Hno. unfold setRAMsData in Hno.
    assert (En : data_file path rnd l = (path ++ l ++ lit "__" ++ rnd l) ++ ramdata_sufix) by (unfold data_file; rewrite <- !app_assoc; reflexivity).
    destruct (Hf l ltac:(eauto)) as (_ & Hn & _). change (len (data_file path rnd l) < W64) in Hn. rewrite En in *. rewrite has_suffix_app in Hno by exact Hn. cbn [rbind] in Hno. rewrite K in Hno. cbn [rbind] in Hno. eapply Hno. reflexivity. }
  destruct (wisard_of_json f2 j) as [w2|e|u|].
  - destruct Hm2 as [A B]. split; [exact A|]. intros l. specialize (B l). destruct (w_discriminators w !! l) as [d|] eqn:El.
    + destruct B as (d' & B1 & B2). split; [split; intros _; eauto|]. intros K. rewrite B2. rewrite (Hin l d El K) in B1. congruence.
    + rewrite B. split; [split; auto|reflexivity].
  - destruct Hm2 as (l & d & El & Hx). apply (Hbad l d El). congruence.
  - destruct Hm2 as (l & d & El & Hx). apply (Hbad l d El). congruence.
  - destruct Hm2 as (l & d & El & Hx). apply (Hbad l d El). congruence.
Qed.
Print Assumptions C163_damage.

(** C123 for a Wisard: if the files of some labels are gone and the others unchanged, the text loads
    without an exception and exactly the labels concerned have lost all their RAMs. *)
Theorem C123_missing_wisard_partial : forall iter rnd lhs_first w0 n cs w f path,
  good_iter iter -> w_discriminators w0 = ∅ -> configured w0 n -> Forall (proper_call w0 n) cs ->
  len (all_examples cs) <= INT_MAX -> int_options w0 -> some_rams w0 -> wrun lhs_first w0 cs = (Ok tt, w) ->
  (forall l d, w_discriminators w !! l = Some d -> is_utf8 l /\ saved_size d <= INT_MAX + 1) ->
  (forall k, length (rnd k) = 10%nat) ->
  let name l := path ++ l ++ lit "__" ++ rnd l ++ lit ".wdpkg" in
  (forall l, is_Some (w_discriminators w !! l) ->
     is_utf8 (name l) /\ len (name l) < W64 /\ fs_writable f (name l) = true /\ fs_read f (name l) = None) ->
  exists j f', wisard_json iter rnd f w true path = (Ok j, f') /\
    forall f2, (forall l, is_Some (w_discriminators w !! l) -> fs_read f2 (name l) = None \/ fs_read f2 (name l) = fs_read f' (name l)) ->
    exists w2, wisard_of_json f2 j = Ok w2 /\ forall l d, w_discriminators w !! l = Some d ->
      w_discriminators w2 !! l = Some (match fs_read f2 (name l) with None => Disc (d_entrySize d) (d_count d) [] | Some _ => d end).
Proof.
  cbv zeta. setoid_rewrite <- utf8_ok_iff. intros iter rnd lhs w0 n cs w f path Hi H0 Hc Hp Hm Ho Hs E Hlab Hr Hf.
  destruct (reach_savable iter lhs w0 n cs w Hi H0 Hc Hp Hm Ho Hs E) as [H2 H1]; [intros l d El; apply (Hlab l d El)|].
  destruct (wisard_damage iter rnd f w path Hi H1 H2 Hr) as (j & f' & Ej & Hfile & Hd).
  { intros l [d El]. split; [apply (Hlab l d El)|]. apply Hf. eauto. }
  exists j, f'. split; [exact Ej|]. intros f2 Hor. destruct (Hd f2) as (L & HL & Hin & Hm2).
  assert (HLok : forall l d, w_discriminators w !! l = Some d -> L l d = Ok (match fs_read f2 (data_file path rnd l) with None => Disc (d_entrySize d) (d_count d) [] | Some _ => d end)).
  { intros l d El. destruct (Hor l ltac:(eauto)) as [K|K]; change (fs_read f2 (data_file path rnd l) = None) in K || change (fs_read f2 (data_file path rnd l) = fs_read f' (data_file path rnd l)) in K.
    - rewrite (HL l d El). unfold setRAMsData.
      assert (En : data_file path rnd l = (path ++ l ++ lit "__" ++ rnd l) ++ ramdata_sufix) by (unfold data_file; rewrite <- !app_assoc; reflexivity).
      destruct (Hf l ltac:(eauto)) as (_ & Hn & _). change (len (data_file path rnd l) < W64) in Hn. rewrite En in *. rewrite has_suffix_app by exact Hn. cbn [rbind]. rewrite K. reflexivity.
    - rewrite (Hin l d El K). rewrite K, (Hfile l d El). reflexivity. }
  destruct (wisard_of_json f2 j) as [w2|e|u|].
  - destruct Hm2 as [_ B]. exists w2. split; [reflexivity|]. intros l d El. specialize (B l). rewrite El in B. destruct B as (d' & B1 & B2). rewrite (HLok l d El) in B1. injection B1 as <-. exact B2.
  - destruct Hm2 as (l & d & El & Hx). rewrite (HLok l d El) in Hx. discriminate.
  - destruct Hm2 as (l & d & El & Hx). rewrite (HLok l d El) in Hx. discriminate.
  - destruct Hm2 as (l & d & El & Hx). rewrite (HLok l d El) in Hx. discriminate.
Qed.
Print Assumptions C123_missing_wisard_partial.

(** C117 for a Wisard: only the first k bytes of the file of the label l reached the disk. Loading
    ends; if it succeeds, every other label is as it was, the RAMs of l wholly written answer as
    before, at most one more answers as before or 0, and the others are gone. *)
Theorem C117_cut_wisard_partial : forall iter rnd lhs_first w0 n cs w f path,
  good_iter iter -> w_discriminators w0 = ∅ -> configured w0 n -> Forall (proper_call w0 n) cs ->
  len (all_examples cs) <= INT_MAX -> int_options w0 -> some_rams w0 -> wrun lhs_first w0 cs = (Ok tt, w) ->
  (forall l d, w_discriminators w !! l = Some d -> is_utf8 l /\ saved_size d <= INT_MAX + 1) ->
  (forall k, length (rnd k) = 10%nat) ->
  let name l := path ++ l ++ lit "__" ++ rnd l ++ lit ".wdpkg" in
  (forall l, is_Some (w_discriminators w !! l) ->
     is_utf8 (name l) /\ len (name l) < W64 /\ fs_writable f (name l) = true /\ fs_read f (name l) = None) ->
  exists j f', wisard_json iter rnd f w true path = (Ok j, f') /\
    forall f2 l d k content, w_discriminators w !! l = Some d -> fs_read f' (name l) = Some content -> fs_read f2 (name l) = Some (take k content) ->
      (forall l', l' <> l -> fs_read f2 (name l') = fs_read f' (name l')) ->
    exists m, whole_items ram_size (Z.of_nat k) (d_rams d) m /\
    match wisard_of_json f2 j with
    | Ok w2 => (forall l', l' <> l -> w_discriminators w2 !! l' = w_discriminators w !! l') /\
        exists d', w_discriminators w2 !! l = Some d' /\ d_entrySize d' = d_entrySize d /\ d_count d' = d_count d /\
        forall im votes, disc_classify d im = Ok votes ->
          exists more, disc_classify d' im = Ok (take m votes ++ more) /\
            (more = [] \/ more = [0] \/ exists v, more = [v] /\ votes !! m = Some v)
    | Throw e => (m < length (d_rams d))%nat /\ e = EOutOfRange
    | UB u => (m < length (d_rams d))%nat /\ u = UBIndex
    | Hang => False
    end.
Proof.
  cbv zeta. setoid_rewrite <- utf8_ok_iff. intros iter rnd lhs w0 n cs w f path Hi H0 Hc Hp Hm Ho Hs E Hlab Hr Hf.
  destruct (reach_savable iter lhs w0 n cs w Hi H0 Hc Hp Hm Ho Hs E) as [H2 H1]; [intros l d El; apply (Hlab l d El)|].
  destruct (wisard_damage iter rnd f w path Hi H1 H2 Hr) as (j & f' & Ej & Hfile & Hd).
  { intros l [d El]. split; [apply (Hlab l d El)|]. apply Hf. eauto. }
  exists j, f'. split; [exact Ej|]. intros f2 l d k content El Ec Ek Hoth. destruct (Hd f2) as (L & HL & Hin & Hm2).
  change (fs_read f' (data_file path rnd l) = Some content) in Ec. change (fs_read f2 (data_file path rnd l) = Some (take k content)) in Ek. rewrite (Hfile l d El) in Ec. injection Ec as <-.
  assert (En : data_file path rnd l = (path ++ l ++ lit "__" ++ rnd l) ++ ramdata_sufix) by (unfold data_file; rewrite <- !app_assoc; reflexivity).
  destruct (Hf l ltac:(eauto)) as (_ & Hn & _). change (len (data_file path rnd l) < W64) in Hn. destruct (H2 l d El) as [(He & Hcn & Hne & _ & Hlen) Hall].
  pose proof (HL l d El) as HLl. rewrite En in Ek, Hn, HLl. destruct (set_cut k iter f2 _ d _ _ Hi Hall Hne Hlen Hn Ek) as (m & Hw & Hcut). exists m. split; [exact Hw|].
  assert (Hother : forall l' d', l' <> l -> w_discriminators w !! l' = Some d' -> L l' d' = Ok d') by (intros l' d' Hl' El'; apply Hin; [exact El'|apply Hoth, Hl']).
  destruct (wisard_of_json f2 j) as [w2|e|u|].
  - destruct Hm2 as [_ B]. split.
    + intros l' Hl'. specialize (B l'). destruct (w_discriminators w !! l') as [d'|] eqn:El'; [|exact B]. destruct B as (d2 & B1 & B2). rewrite (Hother l' d' Hl' El') in B1. congruence.
    + specialize (B l). rewrite El in B. destruct B as (d' & B1 & B2). exists d'. split; [exact B2|]. rewrite HLl in B1. destruct (setRAMsData _ _ _ _) as [rs| | |]; try discriminate. cbn [rbind] in B1. injection B1 as <-.
      split; [reflexivity|]. split; [reflexivity|]. intros im votes Hv. apply (votes_left d (Disc (d_entrySize d) (d_count d) rs) m im votes); [reflexivity|exact Hcut|exact Hv].
  - destruct Hm2 as (l' & d' & El' & Hx). destruct (decide (l' = l)) as [-> |Hl']; [|rewrite (Hother l' d' Hl' El') in Hx; discriminate]. rewrite El in El'. injection El' as <-. rewrite HLl in Hx. destruct (setRAMsData _ _ _ _); try discriminate. cbn [rbind] in Hx. injection Hx as <-. exact Hcut.
  - destruct Hm2 as (l' & d' & El' & Hx). destruct (decide (l' = l)) as [-> |Hl']; [|rewrite (Hother l' d' Hl' El') in Hx; discriminate]. rewrite El in El'. injection El' as <-. rewrite HLl in Hx. destruct (setRAMsData _ _ _ _); try discriminate. cbn [rbind] in Hx. injection Hx as <-. exact Hcut.
  - destruct Hm2 as (l' & d' & El' & Hx). destruct (decide (l' = l)) as [-> |Hl']; [|rewrite (Hother l' d' Hl' El') in Hx; discriminate]. rewrite El in El'. injection El' as <-. rewrite HLl in Hx. destruct (setRAMsData _ _ _ _); try discriminate. exact Hcut.
Qed.
Print Assumptions C117_cut_wisard_partial.
(** Not vacuous: the classifier of C60_witness; the file of hot is cut, removed or overwritten. *)
Definition rnd0 : str -> str := fun _ => lit "AbCdEfGh12".
Definition after_loss (g : gmap str str -> gmap str str) : res (option Z * option Z) :=
  let '(r, f') := wisard_json it0 rnd0 disk learned true (lit "dir/") in
  let* j := r in let* wl := wisard_of_json (Fs (g (fs_files f')) (fun _ => true)) j in
  let* c1 := wisard_candidates wl w1 in let* c2 := wisard_candidates wl w2 in Ok (c1 !! hot, c2 !! cold).
Example C163_witness : configured cfg 4 /\ Forall (proper_call cfg 4) calls /\ int_options cfg /\ some_rams cfg /\ wrun true cfg calls = (Ok tt, learned) /\
  (forall l d, w_discriminators learned !! l = Some d -> is_utf8 l /\ saved_size d <= INT_MAX + 1) /\
  (forall l, is_Some (w_discriminators learned !! l) -> let name := lit "dir/" ++ l ++ lit "__" ++ rnd0 l ++ lit ".wdpkg" in
     is_utf8 name /\ len name < W64 /\ fs_writable disk name = true /\ fs_read disk name = None) /\
  after_loss (fun m => m) = Ok (Some 2, Some 2) /\
  after_loss (delete (lit "dir/hot__AbCdEfGh12.wdpkg")) = Ok (Some 0, Some 2) /\
  after_loss (insert (lit "dir/hot__AbCdEfGh12.wdpkg") (lit "?")) = Throw EOutOfRange /\
  after_loss (alter (take 16) (lit "dir/hot__AbCdEfGh12.wdpkg")) = Ok (Some 1, Some 2).
Proof.
  split; [apply cfg_configured|]. split; [apply calls_proper|]. split; [apply cfg_ints|].
  split; [intros l H; cbn in H; rewrite lookup_empty in H; discriminate|]. split; [vm_compute; reflexivity|]. split; [exact learned_label|]. split.
  - intros l [d Hd]. assert (Hl : l = hot \/ l = cold).
    { assert (Hin : (l, d) ∈ sorted_items (w_discriminators learned)) by (apply sorted_items_elem; exact Hd). apply (elem_of_list_fmap_1 fst) in Hin.
      rewrite (proj2 learned_check) in Hin. rewrite !elem_of_cons, elem_of_nil in Hin. cbn [fst] in Hin.
      destruct Hin as [Hin|[Hin|[]]]; [right|left]; exact Hin. }
    cbv zeta. destruct Hl as [-> | ->]; (split; [apply utf8_ok_iff; vm_compute; reflexivity|]; split; [vm_compute; reflexivity|]; split; [reflexivity|vm_compute; reflexivity]).
  - split; [vm_compute; reflexivity|]. split; [vm_compute; reflexivity|]. split; vm_compute; reflexivity.
Qed.
