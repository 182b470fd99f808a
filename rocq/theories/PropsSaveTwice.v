(** C12, second part: exact outcome of saving a data set to a path that already holds one. *)
From Verif Require Import Prelude Bytes Base64 Utils BinInput Fs RamData DataSet SpecBin SpecDataSet SpecDecode.
From Verif Require Import BytesProofs UtilsProofs TextProofs Base64Proofs BinProofs RamDataProofs DataSetProofs SaveTwice.

Lemma save_over f l prefix old : len l <= INT_MAX ->
  fs_writable f (prefix ++ dataset_sufix) = true -> fs_read f (prefix ++ dataset_sufix) = Some old ->
  fs_read (snd (ds_save f (adds l) prefix)) (prefix ++ dataset_sufix) = Some (old ++ join_dots (rec_text <$> l)).
Proof.
  intros Hl Hw Hn. unfold ds_save. rewrite adds_data.
  pose proof (save_loop_out l Hl l [] (ds_labels (adds l)) [] eq_refl) as Hout.
  change (len (@nil (bininput * str))) with 0 in Hout.
  destruct (ds_save_loop _ _ _ _) as [labels out] eqn:E. cbn [snd] in *. rewrite Hout.
  - unfold fs_append. rewrite Hw. unfold fs_read in Hn. rewrite Hn. cbn. unfold fs_read. cbn. rewrite lookup_insert. reflexivity.
  - intros i _. rewrite adds_labels by exact Hl. reflexivity.
Qed.
Lemma save_writable f d prefix name : fs_writable (snd (ds_save f d prefix)) name = fs_writable f name.
Proof. unfold ds_save. destruct (ds_save_loop _ _ _ _). cbn [snd]. unfold fs_append. destruct (fs_writable f _); reflexivity. Qed.
Lemma join_border (xs : list str) a b ys : join_dots (xs ++ [a]) ++ join_dots (b :: ys) = join_dots (xs ++ (a ++ b) :: ys).
Proof.
  induction xs as [|x xs IH]; cbn [app].
  - rewrite (join_head b), (join_head (a ++ b)), <- app_assoc. reflexivity.
  - rewrite (join_head x), (join_head x (xs ++ _)). rewrite <- app_assoc. f_equal.
    assert (H : forall l (z : str) zs, (match l ++ z :: zs with [] => [] | _ => "."%char :: join_dots (l ++ z :: zs) end : str) = "."%char :: join_dots (l ++ z :: zs)).
    { intros l z zs. destruct l; reflexivity. }
    rewrite !H. cbn [app]. rewrite IH. reflexivity.
Qed.
Lemma records_app l1 : forall l2 d, ds_records (l1 ++ l2) d = let* d' := ds_records l1 d in ds_records l2 d'.
Proof. induction l1 as [|x l1 IH]; intros l2 d; [reflexivity|]. cbn [app ds_records]. destruct (ds_record x) as [[label b]| | |]; cbn [rbind]; [apply IH|reflexivity..]. Qed.

(** A record with more text after its pixels. *)
Lemma border_record s1 T : s1 <> [] -> len (encode s1 ++ "#"%char :: T) <= INT_MAX ->
  ds_record (encode s1 ++ "#"%char :: T) = let* b := bin_of_data T in Ok (s1, b).
Proof.
  intros Hne Hl. unfold ds_record, find_str. rewrite find_sharp_from by apply encode_no_sharp. rewrite Z.add_0_l, len_app, len_cons in *.
  pose proof (len_nonneg (encode s1)). pose proof (len_nonneg T). cbv zeta. rewrite s32_id by (unfold INT_MIN; lia).
  assert (substr (encode s1 ++ "#"%char :: T) 0 (len (encode s1)) = Ok (encode s1)) as ->.
  { apply (substr_mid [] (encode s1)). cbn [app]. rewrite len_app, len_cons. unfold W64, INT_MAX in *; lia. }
  cbn [rbind]. rewrite decode_encode by exact Hne. cbn [rbind].
  assert (substr (encode s1 ++ "#"%char :: T) (len (encode s1) + 1) (len (encode s1) + (1 + len T) - (len (encode s1) + 1)) = Ok T) as ->; [|reflexivity].
  replace (encode s1 ++ "#"%char :: T) with ((encode s1 ++ ["#"%char]) ++ T ++ []) by (rewrite app_nil_r, <- app_assoc; reflexivity).
  replace (len (encode s1) + 1) with (len (encode s1 ++ ["#"%char])) by (rewrite len_app, len_cons, len_nil; lia).
  replace (len (encode s1) + (1 + len T) - len (encode s1 ++ ["#"%char])) with (len T) by (rewrite len_app, len_cons, len_nil; lia).
  apply substr_mid. rewrite app_nil_r, !len_app, len_cons, len_nil. unfold W64, INT_MAX in *; lia.
Qed.
(** Pixels followed by more bytes. *)
Lemma longer_image b extra T : bin_wf b -> extra <> [] -> (len (b_input b) + len extra) * 8 <= bin_limit ->
  Base64.decode T = Ok ((to_char (b_remain b) :: b_input b) ++ extra) ->
  exists b', bin_of_data T = Ok b' /\ bin_size b < bin_size b' /\ forall i, 0 <= i < bin_size b -> bin_get b' i = bin_get b i.
Proof.
  intros Hwf Hex Hlim HT. pose proof Hwf as (H1 & H2 & H3). pose proof (len_nonneg (b_input b)). exists (BinInput (b_remain b) (b_input b ++ extra)).
  assert (Hx : 0 < len extra) by (unfold len; destruct extra; [congruence|cbn [length]; lia]).
  assert (Hwf' : bin_wf (BinInput (b_remain b) (b_input b ++ extra))).
  { unfold bin_wf. cbn [b_remain b_input]. rewrite len_app. split; [exact H1|]. split; [lia|exact Hlim]. }
  assert (Hs : bin_size b < bin_size (BinInput (b_remain b) (b_input b ++ extra))).
  { rewrite (bin_wf_size b Hwf), (bin_wf_size _ Hwf'). cbn [b_remain b_input]. rewrite len_app. lia. }
  split; [|split; [exact Hs|]].
  - unfold bin_of_data. rewrite HT. cbn [rbind app]. rewrite substr_head. cbn [rbind]. rewrite substr_tail; [|rewrite len_app; unfold bin_limit, W64 in *; lia].
    cbn [rbind nth]. rewrite schar_to_char by lia. reflexivity.
  - intros i Hi. destruct (bin_get_ok b i Hwf Hi) as (c & Hc & ->). destruct (bin_get_ok _ i Hwf' ltac:(lia)) as (c' & Hc' & ->).
    cbn [b_input] in Hc'. rewrite (lookup_app_l_Some _ _ _ _ Hc) in Hc'. injection Hc' as ->. reflexivity.
Qed.

Definition saveable (bl : bininput * str) : Prop := bin_made bl.1 /\ bin_size bl.1 <= 2 ^ 31 /\ bl.2 <> [] /\ len bl.2 <= 2 ^ 28.

(** The second data set is appended to the first without a separator: the last entry of the first
    and the first entry of the second become one record. What loading then gives depends on the
    Base64 padding at that border. If the bytes of the last image (with its leading remainder byte)
    or the characters of the first label are not a multiple of three, loading succeeds, but the first
    entry of the second data set is gone, and the last image of the first has grown; otherwise
    loading reads out of bounds. Either way neither data set nor their concatenation comes back. *)
Theorem C12_saved_over_partial : forall f xs b1 s1 b2 s2 ys prefix,
  len (xs ++ [(b1, s1)]) <= INT_MAX -> len ((b2, s2) :: ys) <= INT_MAX ->
  Forall saveable (xs ++ [(b1, s1)]) -> Forall saveable ((b2, s2) :: ys) ->
  len (prefix ++ dataset_sufix) < W64 ->
  fs_writable f (prefix ++ dataset_sufix) = true -> fs_files f !! (prefix ++ dataset_sufix) = None ->
  let f1 := snd (ds_save f (adds (xs ++ [(b1, s1)])) prefix) in
  let f2 := snd (ds_save f1 (adds ((b2, s2) :: ys)) prefix) in
  let outcome := ds_load f2 (prefix ++ dataset_sufix) in
  let bytes := 1 + (bin_size b1 + 7) / 8 in
  (bytes mod 3 <> 0 \/ len s2 mod 3 <> 0 ->
   exists b', outcome = Ok (adds (xs ++ (b', s1) :: ys)) /\ bin_size b1 < bin_size b' /\ forall i, 0 <= i < bin_size b1 -> bin_get b' i = bin_get b1 i) /\
  (bytes mod 3 = 0 -> len s2 mod 3 = 0 -> outcome = UB UBIndex).
Proof.
  intros f xs b1 s1 b2 s2 ys prefix Hl1 Hl2 Hg1 Hg2 Hp Hw Hn. cbv zeta.
  apply Forall_app in Hg1 as (Hxs & Hb1). apply Forall_cons in Hb1 as (Hb1 & _). apply Forall_cons in Hg2 as (Hb2 & Hys).
  destruct Hb1 as (M1 & S1 & N1 & L1). destruct Hb2 as (M2 & S2 & N2 & L2). cbn [fst snd] in *.
  pose proof (bin_made_wf b1 M1) as W1. pose proof (bin_made_wf b2 M2) as W2.
  assert (Hgood : forall l, Forall saveable l -> Forall (fun bl => bl.2 <> [] /\ bin_wf bl.1 /\ len (rec_text bl) <= INT_MAX) l).
  { intros l Hl. eapply Forall_impl; [exact Hl|]. intros [b s] (Ha & Hb & Hc & Hd). cbn [fst snd] in *. apply bin_made_wf in Ha. split; [exact Hc|]. split; [exact Ha|]. apply rec_text_bound; [exact Ha|lia|lia]. }
  unfold ds_load. rewrite dataset_has_suffix by exact Hp. cbn [rbind negb].
  rewrite (save_over _ _ _ (join_dots (rec_text <$> xs ++ [(b1, s1)])) Hl2); [|rewrite save_writable; exact Hw|apply ds_save_file; assumption].
  rewrite fmap_app. cbn [fmap list_fmap]. rewrite join_border. rewrite fields_join; [|intros Hc; destruct (app_cons_not_nil _ _ _ (eq_sym Hc))|].
  2:{ apply Forall_app. split; [apply Forall_fmap, Forall_true; intros x; apply rec_text_no_dot|]. constructor; [|apply Forall_fmap, Forall_true; intros x; apply rec_text_no_dot].
      rewrite elem_of_app. intros [H|H]; revert H; apply rec_text_no_dot. }
  set (t1 := to_char (b_remain b1) :: b_input b1). set (t2 := to_char (b_remain b2) :: b_input b2).
  assert (Et : rec_text (b1, s1) ++ rec_text (b2, s2) = encode s1 ++ "#"%char :: (encode t1 ++ encode s2 ++ "#"%char :: encode t2)).
  { unfold rec_text, bin_data. cbn [fst snd]. rewrite <- app_assoc. reflexivity. }
  assert (Hb : len (b_input b1) = (bin_size b1 + 7) / 8 /\ len (b_input b1) <= 2 ^ 28 /\ len (b_input b2) <= 2 ^ 28).
  { rewrite (bin_wf_size b1 W1) in *. rewrite (bin_wf_size b2 W2) in S2. destruct W1 as (R1 & _). destruct W2 as (R2 & _).
    split; [|lia]. apply (Z.div_unique _ _ _ (7 - b_remain b1)); lia. }
  destruct Hb as (Eb & Hb1 & Hb2).
  assert (Elt : len t1 = 1 + (bin_size b1 + 7) / 8) by (unfold t1; rewrite len_cons, Eb; reflexivity).
  assert (Hlen : len (rec_text (b1, s1) ++ rec_text (b2, s2)) <= INT_MAX).
  { rewrite Et, len_app, len_cons, !len_app, len_cons, !encode_length4. unfold t1, t2. rewrite !len_cons.
    pose proof (Z.div_mod (len s1 + 2) 3 ltac:(lia)). pose proof (Z.mod_pos_bound (len s1 + 2) 3 ltac:(lia)).
    pose proof (Z.div_mod (len s2 + 2) 3 ltac:(lia)). pose proof (Z.mod_pos_bound (len s2 + 2) 3 ltac:(lia)).
    pose proof (Z.div_mod (1 + len (b_input b1) + 2) 3 ltac:(lia)). pose proof (Z.mod_pos_bound (1 + len (b_input b1) + 2) 3 ltac:(lia)).
    pose proof (Z.div_mod (1 + len (b_input b2) + 2) 3 ltac:(lia)). pose proof (Z.mod_pos_bound (1 + len (b_input b2) + 2) 3 ltac:(lia)).
    unfold INT_MAX. lia. }
  rewrite records_app, (ds_records_ok xs (Hgood xs Hxs)). cbn [rbind ds_records]. rewrite Et in Hlen |- *. rewrite (border_record s1 _ N1 Hlen).
  destruct (border_decode t1 s2 t2) as (D1 & D2 & D3); [discriminate|discriminate|]. set (T := encode t1 ++ encode s2 ++ "#"%char :: encode t2) in *.
  rewrite <- Elt in *.
  assert (Hfin : (exists extra, extra <> [] /\ len extra <= 2 * len s2 + len t1 + len t2 + 4 /\ Base64.decode T = Ok (t1 ++ extra)) ->
    exists b', rbind (rbind (bin_of_data T) (fun b => Ok (s1, b))) (fun '(label, b) => ds_records (rec_text <$> ys) (ds_add (foldl (fun d bl => ds_add d bl.1 bl.2) ds_empty xs) b label)) = Ok (adds (xs ++ (b', s1) :: ys)) /\
      bin_size b1 < bin_size b' /\ (forall i, 0 <= i < bin_size b1 -> bin_get b' i = bin_get b1 i)).
  { intros (extra & Hex & Hel & HT). destruct (longer_image b1 extra T W1 Hex) as (b' & HB & Hsz & Hpx).
    - unfold t1, t2 in Hel. rewrite !len_cons in Hel. unfold bin_limit. lia.
    - exact HT.
    - exists b'. split; [|split; assumption]. rewrite HB. cbn [rbind]. rewrite (ds_records_ok ys (Hgood ys Hys)). f_equal. unfold adds. rewrite foldl_app. reflexivity. }
  split.
  - intros Hc. apply Hfin. destruct (decide (len t1 mod 3 = 0)) as [Em|Em].
    + destruct Hc as [Hc|Hc]; [congruence|]. destruct (D2 Em Hc) as (k & Hk & HT). exists (s2 ++ replicate k "000"%char).
      split; [intros He; apply app_eq_nil in He as (He & _); congruence|]. split; [|exact HT]. rewrite len_app. unfold len at 2. rewrite replicate_length. lia.
    + destruct (D1 Em) as (k & Hk0 & Hk & HT). exists (replicate k "000"%char). split; [destruct k; [lia|discriminate]|]. split; [|exact HT]. unfold len at 1. rewrite replicate_length. pose proof (len_nonneg s2). lia.
  - intros H3 H4. unfold bin_of_data. rewrite (D3 H3 H4). reflexivity.
Qed.
Print Assumptions C12_saved_over_partial.

Example saved_over_witness :
  let f0 := Fs ∅ (fun _ => true) in
  let img n := bin_of_size n in
  let l1 := [(img 5, lit "u"); (img 16, lit "a")] in
  let again l2 := ds_load (snd (ds_save (snd (ds_save f0 (adds l1) (lit "d"))) (adds l2) (lit "d"))) (lit "d" ++ dataset_sufix) in
  Forall saveable l1 /\ saveable (img 3, lit "bc") /\ saveable (img 3, lit "bcd") /\ (1 + (bin_size (img 16) + 7) / 8) mod 3 = 0 /\
  (exists d, again [(img 3, lit "bc"); (img 4, lit "e")] = Ok d /\ ds_size d = 3 /\ ds_getLabel d 2 = Ok (lit "e")) /\
  again [(img 3, lit "bcd"); (img 4, lit "e")] = UB UBIndex.
Proof.
  cbv beta zeta.
  repeat match goal with |- saveable _ => unfold saveable; cbn [fst snd] | |- _ /\ _ => split | |- Forall _ _ => constructor | |- bin_made (bin_of_size _) => apply made_size; unfold bin_limit; lia end; try (vm_compute; congruence).
  all: try (eexists; split; [vm_compute; reflexivity|]; split; vm_compute; reflexivity).
Qed.
