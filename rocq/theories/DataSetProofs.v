From Verif Require Import Prelude Bytes Base64 BinInput Fs RamData DataSet SpecBin SpecDataSet.
From Verif Require Import Base64Proofs BytesProofs BinProofs TextProofs RamDataProofs.

Lemma adds_snoc l b s : adds (l ++ [(b, s)]) = ds_add (adds l) b s.
Proof. unfold adds. rewrite foldl_app. reflexivity. Qed.

Lemma adds_data l : ds_data (adds l) = l.*1.
Proof.
  induction l as [|[b s] l IH] using rev_ind; [reflexivity|]. rewrite adds_snoc, fmap_app. cbn. rewrite IH. reflexivity.
Qed.

Definition label_at (l : list (bininput * str)) (i : Z) : option str :=
  if 0 <=? i then
    match l !! Z.to_nat i with Some (_, c :: s) => Some (c :: s) | _ => None end
  else None.

Lemma adds_labels l : len l <= INT_MAX -> forall i, ds_labels (adds l) !! i = label_at l i.
Proof.
  induction l as [|[b s] l IH] using rev_ind; intros Hl i.
  - unfold label_at. cbn. rewrite lookup_empty. destruct (0 <=? i); reflexivity.
  - rewrite len_app, len_cons, len_nil in Hl. pose proof (len_nonneg l).
    rewrite adds_snoc. unfold ds_add. cbn [ds_labels].
    assert (len (ds_data (adds l)) = len l) as E by (rewrite adds_data; unfold len; rewrite fmap_length; reflexivity).
    rewrite E, s32_id by (unfold INT_MIN; lia).
    unfold label_at.
    destruct s as [|c s].
    + rewrite IH by lia. unfold label_at. destruct (Z.leb_spec 0 i); [|reflexivity].
      destruct (decide (Z.to_nat i < length l)%nat).
      * rewrite lookup_app_l by assumption. reflexivity.
      * rewrite (lookup_ge_None_2 l) by lia. rewrite lookup_app_r by lia.
        destruct (Z.to_nat i - length l)%nat; reflexivity.
    + destruct (decide (i = len l)) as [->|Hne].
      * rewrite lookup_insert. destruct (Z.leb_spec 0 (len l)); [|lia].
        unfold len. rewrite Nat2Z.id. rewrite list_lookup_middle by reflexivity. reflexivity.
      * rewrite lookup_insert_ne by congruence. rewrite IH by lia. unfold label_at.
        destruct (Z.leb_spec 0 i); [|reflexivity].
        destruct (decide (Z.to_nat i < length l)%nat).
        -- rewrite lookup_app_l by assumption. reflexivity.
        -- rewrite (lookup_ge_None_2 l) by lia. unfold len in *. rewrite lookup_app_r by lia.
           rewrite (lookup_ge_None_2 [(b, c :: s)]) by (cbn; lia). reflexivity.
Qed.

Theorem adds_spec l : len l <= INT_MAX ->
  ds_size (adds l) = len l /\
  forall i, match l !! i with
            | Some (b, s) =>
                ds_get (adds l) (Z.of_nat i) = Ok b /\
                ds_getLabel (adds l) (Z.of_nat i) = (if decide (s = []) then Throw EOutOfRange else Ok s)
            | None => INT_MIN <= Z.of_nat i <= INT_MAX ->
                      ds_getLabel (adds l) (Z.of_nat i) = Throw EOutOfRange
            end.
Proof.
  intros Hl. split.
  - unfold ds_size. rewrite adds_data. unfold len. rewrite fmap_length. reflexivity.
  - intros i. destruct (l !! i) as [[b s]|] eqn:E.
    + pose proof (lookup_lt_Some _ _ _ E). split.
      * unfold ds_get, vget. destruct (Z.leb_spec 0 (Z.of_nat i)); [|lia].
        rewrite Nat2Z.id, adds_data, list_lookup_fmap, E. reflexivity.
      * unfold ds_getLabel. rewrite adds_labels by exact Hl. unfold len in *.
        rewrite s32_id by (unfold INT_MIN; lia). unfold label_at.
        destruct (Z.leb_spec 0 (Z.of_nat i)); [|lia]. rewrite Nat2Z.id, E.
        destruct s; [destruct (decide _) as [_|Hs0]; [reflexivity|congruence]|].
        destruct (decide _) as [Hs0|_]; [discriminate|reflexivity].
    + intros Hi. unfold ds_getLabel. rewrite adds_labels by exact Hl. rewrite s32_id by lia.
      unfold label_at. destruct (0 <=? Z.of_nat i); [|reflexivity]. rewrite Nat2Z.id, E. reflexivity.
Qed.

Lemma ds_add_list_spec d l s b : bin_of_list l = Ok b -> ds_add_list d l s = (Ok tt, ds_add d b s).
Proof. intros H. unfold ds_add_list. rewrite H. reflexivity. Qed.

(** ** save *)
Definition rec_text (bl : bininput * str) : str := encode bl.2 ++ "#"%char :: bin_data bl.1.

Lemma rec_text_no_dot bl : "."%char ∉ rec_text bl.
Proof.
  unfold rec_text. rewrite elem_of_app, elem_of_cons. intros [H|[H|H]].
  - revert H. apply encode_no_dot.
  - discriminate.
  - revert H. apply encode_no_dot.
Qed.

Lemma save_loop_out l : len l <= INT_MAX ->
  forall rest pre labels out, l = pre ++ rest ->
  (forall i, len pre <= i < len l -> default [] (labels !! i) = default [] (label_at l i)) ->
  snd (ds_save_loop (rest.*1) (len pre) labels out) =
    out ++ match pre, rest with
           | [], _ => join_dots (rec_text <$> rest)
           | _, [] => []
           | _, _ => "."%char :: join_dots (rec_text <$> rest)
           end.
Proof.
  intros Hmax rest. induction rest as [|[b s] rest IH]; intros pre labels out Hl Hlab.
  - cbn. destruct pre; cbn; rewrite app_nil_r; reflexivity.
  - cbn [fmap list_fmap fst ds_save_loop].
    assert (len pre < len l) as Hlt by (rewrite Hl, len_app, len_cons; pose proof (len_nonneg rest); lia).
    pose proof (len_nonneg pre). rewrite s32_id by (unfold INT_MIN; lia).
    assert (default [] (labels !! len pre) = s) as Es.
    { rewrite Hlab by lia. unfold label_at. destruct (Z.leb_spec 0 (len pre)); [|lia].
      rewrite Hl. unfold len. rewrite Nat2Z.id, list_lookup_middle by reflexivity. destruct s; reflexivity. }
    rewrite Es. replace (len pre + 1) with (len (pre ++ [(b, s)])) by (rewrite len_app, len_cons, len_nil; lia).
    rewrite IH.
    + change (encode s ++ lit "#" ++ bin_data b) with (rec_text (b, s)).
      cbn [fmap list_fmap]. rewrite (join_head (rec_text (b, s))).
      destruct pre as [|p pre].
      * change (len (@nil (bininput * str))) with 0. cbn [Z.eqb app]. rewrite <- app_assoc.
        f_equal. f_equal. destruct rest; reflexivity.
      * destruct (Z.eqb_spec (len (p :: pre)) 0) as [E|_]; [rewrite len_cons in E; pose proof (len_nonneg pre); lia|].
        cbn [app lit String.list_ascii_of_string].
        rewrite <- app_assoc. f_equal. cbn [app]. f_equal. f_equal. destruct rest; reflexivity.
    + rewrite <- app_assoc. exact Hl.
    + intros i Hi. rewrite len_app, len_cons, len_nil in Hi.
      destruct (labels !! len pre) eqn:El; [apply Hlab; lia|].
      rewrite lookup_insert_ne by lia. apply Hlab. lia.
Qed.

Definition no_file (f : fs) (name : str) : Prop := fs_files f !! name = None.

Lemma ds_save_file f l prefix : len l <= INT_MAX ->
  fs_writable f (prefix ++ dataset_sufix) = true -> no_file f (prefix ++ dataset_sufix) ->
  fs_read (snd (ds_save f (adds l) prefix)) (prefix ++ dataset_sufix) = Some (join_dots (rec_text <$> l)).
Proof.
  intros Hl Hw Hn. unfold ds_save. rewrite adds_data.
  pose proof (save_loop_out l Hl l [] (ds_labels (adds l)) [] eq_refl) as Hout.
  change (len (@nil (bininput * str))) with 0 in Hout.
  destruct (ds_save_loop _ _ _ _) as [labels out] eqn:E. cbn [snd] in *. rewrite Hout.
  - unfold fs_append. rewrite Hw. unfold no_file in Hn. rewrite Hn. cbn. unfold fs_read. cbn. rewrite lookup_insert. reflexivity.
  - intros i _. rewrite adds_labels by exact Hl. reflexivity.
Qed.

Lemma ds_save_data f d prefix : ds_data (fst (ds_save f d prefix)) = ds_data d.
Proof. unfold ds_save. destruct (ds_save_loop _ _ _ _). reflexivity. Qed.

(** a fully labelled data set is not changed by save *)
Lemma save_loop_labels data : forall i labels out,
  (forall k, (k < length data)%nat -> labels !! s32 (i + Z.of_nat k) <> None) ->
  fst (ds_save_loop data i labels out) = labels.
Proof.
  induction data as [|b data IH]; intros i labels out H; [reflexivity|]. cbn [ds_save_loop].
  assert (labels !! s32 i <> None) as Hi.
  { specialize (H 0%nat ltac:(cbn; lia)). rewrite Z.add_0_r in H. exact H. }
  destruct (labels !! s32 i); [|congruence]. apply IH. intros k Hk.
  specialize (H (S k) ltac:(cbn; lia)). replace (i + 1 + Z.of_nat k) with (i + Z.of_nat (S k)) by lia. exact H.
Qed.

Lemma ds_save_same f l prefix : len l <= INT_MAX -> Forall (fun bl => bl.2 <> []) l ->
  fst (ds_save f (adds l) prefix) = adds l.
Proof.
  intros Hl Hall. unfold ds_save.
  destruct (ds_save_loop _ _ _ _) as [labels out] eqn:E. cbn [fst].
  assert (labels = ds_labels (adds l)) as ->; [|destruct (adds l); reflexivity].
  change labels with (fst (labels, out)). rewrite <- E. apply save_loop_labels.
  intros k Hk. rewrite adds_data, fmap_length in Hk. unfold len in Hl.
  rewrite s32_id by (unfold INT_MIN; lia). rewrite adds_labels by exact Hl. unfold label_at.
  destruct (Z.leb_spec 0 (0 + Z.of_nat k)); [|lia]. rewrite Z.add_0_l, Nat2Z.id.
  destruct (lookup_lt_is_Some_2 l k Hk) as [[b s] Hb]. rewrite Hb.
  rewrite Forall_lookup in Hall. specialize (Hall k _ Hb). cbn in Hall. destruct s; congruence.
Qed.

(** ** load *)
Lemma find_sharp_from a r i : "#"%char ∉ a -> find_str_from (lit "#") (a ++ "#"%char :: r) i = i + len a.
Proof.
  revert i. induction a as [|x a IH]; intros i H.
  - cbn. rewrite Z.add_0_r. reflexivity.
  - apply not_elem_of_cons in H as [Hx Ha]. cbn [app find_str_from lit String.list_ascii_of_string is_prefix].
    destruct (decide ("#"%char = x)); [congruence|]. change ["#"%char] with (lit "#"). rewrite IH by exact Ha.
    rewrite len_cons. lia.
Qed.

Lemma rec_text_split bl : len (rec_text bl) <= INT_MAX ->
  let sharp := s32 (find_str (lit "#") (rec_text bl)) in
  substr (rec_text bl) 0 sharp = Ok (encode bl.2) /\
  substr (rec_text bl) (sharp + 1) (len (rec_text bl) - (sharp + 1)) = Ok (bin_data bl.1).
Proof.
  intros Hl. unfold find_str. unfold rec_text in *. rewrite find_sharp_from by apply encode_no_sharp.
  rewrite Z.add_0_l. rewrite len_app, len_cons in *.
  pose proof (len_nonneg (encode bl.2)). pose proof (len_nonneg (bin_data bl.1)).
  cbv zeta. rewrite s32_id by (unfold INT_MIN; lia). split.
  - apply (substr_mid [] (encode bl.2)). cbn [app]. rewrite len_app, len_cons. unfold W64, INT_MAX in *; lia.
  - replace (encode bl.2 ++ "#"%char :: bin_data bl.1) with ((encode bl.2 ++ ["#"%char]) ++ bin_data bl.1 ++ [])
      by (rewrite app_nil_r, <- app_assoc; reflexivity).
    replace (len (encode bl.2) + 1) with (len (encode bl.2 ++ ["#"%char])) by (rewrite len_app, len_cons, len_nil; lia).
    replace (len (encode bl.2) + (1 + len (bin_data bl.1)) - len (encode bl.2 ++ ["#"%char])) with (len (bin_data bl.1))
      by (rewrite len_app, len_cons, len_nil; lia).
    apply substr_mid. rewrite app_nil_r, !len_app, len_cons, len_nil. unfold W64, INT_MAX in *; lia.
Qed.

Lemma ds_record_ok bl : bl.2 <> [] -> bin_wf bl.1 -> len (rec_text bl) <= INT_MAX ->
  ds_record (rec_text bl) = Ok (bl.2, bl.1).
Proof.
  intros Hne Hwf Hl. destruct (rec_text_split bl Hl) as [H1 H2]. cbv zeta in H1, H2.
  unfold ds_record. rewrite H1. cbn [rbind]. rewrite decode_encode by exact Hne. cbn [rbind].
  rewrite H2. cbn [rbind]. rewrite bin_wf_load by exact Hwf. reflexivity.
Qed.

Lemma ds_record_empty_label bl : bl.2 = [] -> len (rec_text bl) <= INT_MAX -> ds_record (rec_text bl) = UB UBIndex.
Proof.
  intros Hne Hl. destruct (rec_text_split bl Hl) as [H1 _]. cbv zeta in H1.
  unfold ds_record. rewrite H1, Hne. reflexivity.
Qed.

Lemma ds_records_ok l : Forall (fun bl => bl.2 <> [] /\ bin_wf bl.1 /\ len (rec_text bl) <= INT_MAX) l ->
  forall d, ds_records (rec_text <$> l) d = Ok (foldl (fun d bl => ds_add d bl.1 bl.2) d l).
Proof.
  induction 1 as [|bl l (H1 & H2 & H3) Hall IH]; intros d; [reflexivity|].
  cbn [fmap list_fmap ds_records foldl]. rewrite ds_record_ok by assumption. cbn [rbind]. apply IH.
Qed.

Lemma ds_records_bad l : Forall (fun bl => bin_wf bl.1 /\ len (rec_text bl) <= INT_MAX) l ->
  Exists (fun bl => bl.2 = []) l ->
  forall d, ds_records (rec_text <$> l) d = UB UBIndex.
Proof.
  induction 1 as [|bl l (H1 & H2) Hall IH]; intros Hex d; [inversion Hex|].
  cbn [fmap list_fmap ds_records]. destruct (decide (bl.2 = [])) as [E|E].
  - rewrite ds_record_empty_label by assumption. reflexivity.
  - rewrite ds_record_ok by assumption. cbn [rbind]. apply IH. inversion Hex; [congruence|assumption].
Qed.

Lemma dataset_has_suffix prefix : len (prefix ++ dataset_sufix) < W64 ->
  has_suffix (prefix ++ dataset_sufix) dataset_sufix = Ok true.
Proof.
  intros H. assert (len prefix + 6 = len (prefix ++ dataset_sufix)) as E by (rewrite len_app; reflexivity).
  pose proof (len_nonneg prefix).
  rewrite has_suffix_long by (change (len dataset_sufix) with 6; lia). f_equal. apply bool_decide_eq_true.
  change (len dataset_sufix) with 6. replace (len (prefix ++ dataset_sufix) - 6) with (len prefix) by lia.
  apply drop_len.
Qed.

Lemma fields_nil : fields "." [] = [[]].
Proof. reflexivity. Qed.

(** What reloading a freshly saved file gives, in every case. *)
Theorem ds_roundtrip_all f l prefix : len l <= INT_MAX ->
  Forall (fun bl => bin_wf bl.1 /\ len (rec_text bl) <= INT_MAX) l ->
  len (prefix ++ dataset_sufix) < W64 ->
  fs_writable f (prefix ++ dataset_sufix) = true -> no_file f (prefix ++ dataset_sufix) ->
  ds_load (snd (ds_save f (adds l) prefix)) (prefix ++ dataset_sufix) =
    if decide (l <> [] /\ Forall (fun bl => bl.2 <> []) l) then Ok (adds l) else UB UBIndex.
Proof.
  intros Hl Hall Hp Hw Hn. unfold ds_load. rewrite dataset_has_suffix by exact Hp. cbn [rbind negb].
  rewrite ds_save_file by assumption.
  destruct (decide (l = [])) as [->|Hne].
  - destruct (decide _) as [[? _]|_]; [congruence|]. reflexivity.
  - rewrite fields_join.
    2:{ destruct l; [congruence|discriminate]. }
    2:{ apply Forall_fmap. apply Forall_true. intros x. apply rec_text_no_dot. }
    destruct (decide _) as [[_ Hlab]|Hbad].
    + rewrite ds_records_ok; [reflexivity|].
      apply Forall_forall. intros bl Hin. rewrite Forall_forall in Hall, Hlab.
      destruct (Hall bl Hin). split; [apply Hlab; exact Hin|]. split; assumption.
    + apply ds_records_bad; [exact Hall|].
      destruct (decide (Exists (fun bl : bininput * str => bl.2 = []) l)) as [|Hno]; [assumption|].
      exfalso. apply Hbad. split; [exact Hne|]. apply not_Exists_Forall in Hno; [exact Hno|]. intros ?; apply _.
Qed.

Lemma rec_text_bound b s : bin_wf b -> len s <= 536870912 -> bin_size b <= 4294967296 -> len (rec_text (b, s)) <= INT_MAX.
Proof.
  intros Hwf Hs Hb. unfold rec_text, bin_data. cbn [fst snd]. rewrite len_app, len_cons, !encode_length4, len_cons.
  rewrite (bin_wf_size b Hwf) in Hb. destruct Hwf as (H1 & _ & _).
  pose proof (Z.div_mod (len s + 2) 3 ltac:(lia)). pose proof (Z.mod_pos_bound (len s + 2) 3 ltac:(lia)).
  pose proof (Z.div_mod (1 + len (b_input b) + 2) 3 ltac:(lia)). pose proof (Z.mod_pos_bound (1 + len (b_input b) + 2) 3 ltac:(lia)).
  unfold INT_MAX. lia.
Qed.

Theorem ds_roundtrip f l prefix : len l <= INT_MAX ->
  Forall (fun bl => bin_made bl.1 /\ bin_size bl.1 <= 4294967296 /\ len bl.2 <= 536870912) l ->
  len (prefix ++ dataset_sufix) < W64 ->
  fs_writable f (prefix ++ dataset_sufix) = true -> no_file f (prefix ++ dataset_sufix) ->
  ds_load (snd (ds_save f (adds l) prefix)) (prefix ++ dataset_sufix) =
    if decide (l <> [] /\ Forall (fun bl => bl.2 <> []) l) then Ok (adds l) else UB UBIndex.
Proof.
  intros Hl Hall. apply ds_roundtrip_all; [exact Hl|]. eapply Forall_impl; [exact Hall|].
  intros [b s] (H1 & H2 & H3). cbn in *. apply bin_made_wf in H1. split; [exact H1|]. apply rec_text_bound; assumption.
Qed.
