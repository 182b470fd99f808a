(** Property theorems C45-C56: the Wisard classifier. Vocabulary in SpecWisard.v (calls,
    labelled examples, histories, what classification owes) and SpecBleach.v (the rule). *)
From Verif Require Import Prelude Bytes Utils BinInput Bleaching Ram Json Fs RamData Disc DataSet Wisard SpecBin SpecDisc SpecBleach SpecWisard.
From Verif Require Import CtorFacts PropsDisc WisardProofs WisardFacts WisardSafety WisardMore.

(** A concrete classifier over 4 binary pixels with indexes given, and calls on it. *)
Definition cfg : wisard := Wisard 2 true false ∅ [0; 1; 2; 3] false true 2 false false false false 1 ∅.
Definition env0 : str -> draw := fun _ => some_draw.
Definition hot := lit "hot".
Definition cold := lit "cold".
Definition w1 := vec_image [1; 1; 0; 0].
Definition w2 := vec_image [0; 0; 1; 1].
Definition w3 := vec_image [1; 1; 0; 1].
Definition calls : list wcall := [ CTrain env0 [w1; w2; w3] [hot; cold; hot]; CLeaveOne w3 hot; CLeaveMore [w2; w1] [cold; lit "mild"];
                                   CTrain env0 [w2] [cold] ].
Lemma plain4 a b c d : is_bit a -> is_bit b -> is_bit c -> is_bit d -> plain_image 2 4 (vec_image [a; b; c; d]).
Proof.
  intros Ha Hb Hc Hd. split; [reflexivity|]. intros p Hp. unfold is_bit in *.
  assert (p = 0 \/ p = 1 \/ p = 2 \/ p = 3) as [-> | [-> | [-> | ->]]] by lia; (eexists; split; [reflexivity|lia]).
Qed.
Lemma cfg_configured : configured cfg 4.
Proof. unfold configured, INT_MAX. split; [lia|]. split; [vm_compute; congruence|]. split; [vm_compute; congruence|]. vm_compute. congruence. Qed.
Lemma cfg_learns l : can_learn cfg 4 l.
Proof.
  unfold can_learn. cbn [w_mapping cfg]. rewrite lookup_empty. cbn [w_addressSize w_base w_indexes cfg].
  split; [lia|]. split; [unfold INT_MAX; lia|]. split; [split; [intros _; lia|congruence]|]. right. reflexivity.
Qed.
Lemma w_plain : plain_image 2 4 w1 /\ plain_image 2 4 w2 /\ plain_image 2 4 w3.
Proof. split; [|split]; apply plain4; unfold is_bit; auto. Qed.
Lemma calls_proper : Forall (proper_call cfg 4) calls.
Proof.
  destruct w_plain as (H1 & H2 & H3). unfold calls.
  assert (Hd : forall l, valid_draw (env0 l)) by (intros; apply some_draw_valid).
  pose proof cfg_learns as Hl.
  repeat (apply Forall_cons; split; [split; [cbn; repeat (apply Forall_cons; split; [cbn; assumption|]); apply Forall_nil; exact I|]|]); try apply Forall_nil; try exact I.
  - split; [discriminate|]. split; [reflexivity|]. split; [|exact Hd]. repeat (apply Forall_cons; split; [apply Hl|]). apply Forall_nil. exact I.
  - reflexivity.
  - split; [discriminate|]. split; [reflexivity|]. split; [|exact Hd]. repeat (apply Forall_cons; split; [apply Hl|]). apply Forall_nil. exact I.
Qed.

(** C45: the option searchBestConfidence. *)
Theorem C45_searchBest_irrelevant : forall w b xs,
  wisard_classify (Wisard (w_addressSize w) (w_bleachingActivated w) (w_verbose w) (w_mapping w) (w_indexes w)
    (w_ignoreZero w) (w_completeAddressing w) (w_base w) b
    (w_returnConfidence w) (w_returnActivationDegree w) (w_returnClassesDegrees w) (w_confidence w) (w_discriminators w)) xs
  = wisard_classify w xs.
Proof. exact searchBest_irrelevant. Qed.
Print Assumptions C45_searchBest_irrelevant.
Example C45_witness : wisard_classify (snd (wrun true cfg calls)) [w1; w2] = Ok [hot; cold].
Proof. vm_compute. reflexivity. Qed.

(** C46: from an untrained Wisard, any sequence of proper calls succeeds; afterwards classify
    returns for each image the class that the bleaching rule gives to the votes owed by each
    label's own history over its own wiring (d0: the discriminator each trained label was
    created with). *)
Theorem C46_wisard_law : forall lhs_first w0 n cs,
  w_discriminators w0 = ∅ -> configured w0 n -> Forall (proper_call w0 n) cs -> len (all_examples cs) <= INT_MAX - 2 ->
  exists w (d0 : gmap str disc), wrun lhs_first w0 cs = (Ok tt, w) /\
    (forall l, is_Some (d0 !! l) <-> trained l (all_examples cs)) /\
    (forall l d, d0 !! l = Some d -> built w0 n l d) /\
    forall xs, Forall (plain_image (w_base w0) n) xs ->
      exists ks, wisard_classify w xs = Ok ks /\
        Forall2 (fun x k => class_owed w0 (votes_owed d0 (all_examples cs) x) k) xs ks.
Proof. exact wisard_law. Qed.
Print Assumptions C46_wisard_law.
Example C46_witness : w_discriminators cfg = ∅ /\ configured cfg 4 /\ Forall (proper_call cfg 4) calls /\
  len (all_examples calls) = 7 /\ wisard_classify (snd (wrun false cfg calls)) [w1; w2; w3] = Ok [hot; cold; hot].
Proof. split; [reflexivity|]. split; [apply cfg_configured|]. split; [apply calls_proper|]. split; vm_compute; reflexivity. Qed.

(** C47: a call leaves labels it does not mention alone, whether it succeeds or throws. *)
Theorem C47_labels_isolated : forall lhs_first w c w' o B,
  B ∉ call_labels c -> wcall_run lhs_first w c = (o, w') ->
  w_discriminators w' !! B = w_discriminators w !! B /\
  (forall x v v', all_votes (w_discriminators w) x = Ok v -> all_votes (w_discriminators w') x = Ok v' -> v' !! B = v !! B) /\
  (forall iter m m', wisard_mental iter w = Ok m -> wisard_mental iter w' = Ok m' -> m' !! B = m !! B).
Proof. exact isolated. Qed.
Print Assumptions C47_labels_isolated.
Example C47_witness : cold ∉ call_labels (CTrain env0 [w1; w3] [hot; hot]) /\
  exists w', wcall_run true (snd (wrun true cfg calls)) (CTrain env0 [w1; w3] [hot; hot]) = (Ok tt, w') /\
    rmap sorted_items (all_votes (w_discriminators w') w1) = Ok [(cold, [0; 0]); (hot, [3; 2])] /\
    rmap sorted_items (all_votes (w_discriminators (snd (wrun true cfg calls))) w1) = Ok [(cold, [0; 0]); (hot, [1; 1])].
Proof.
  split; [cbn; intros H; repeat (apply elem_of_cons in H as [H|H]; [discriminate|]); inversion H|].
  eexists. split; [vm_compute; reflexivity|]. split; vm_compute; reflexivity.
Qed.

(** C48: from any reachable state, two ways of presenting the same training examples (other
    order, other batches, other random choices) end in the same state when every label is
    already known or has configured wiring. *)
Theorem C48_batches_irrelevant : forall lhs lhs' w0 n cs0 cs cs' w,
  w_discriminators w0 = ∅ -> configured w0 n ->
  Forall (proper_call w0 n) cs0 -> Forall (proper_call w0 n) cs -> Forall (proper_call w0 n) cs' ->
  training_only cs -> training_only cs' -> all_examples cs ≡ₚ all_examples cs' ->
  len (all_examples cs0) + len (all_examples cs) <= INT_MAX ->
  wrun lhs w0 cs0 = (Ok tt, w) ->
  (forall l, is_Some (w_discriminators w !! l) \/ wiring_fixed w0 l) ->
  exists w', wrun lhs w cs = (Ok tt, w') /\ wrun lhs' w cs' = (Ok tt, w').
Proof. exact batches_irrelevant. Qed.
Print Assumptions C48_batches_irrelevant.
Example C48_witness : all_examples [CTrain env0 [w1; w2] [hot; cold]; CTrain env0 [w3] [hot]] ≡ₚ
    all_examples [CTrain env0 [w3; w2; w1] [hot; cold; hot]] /\
  training_only [CTrain env0 [w1; w2] [hot; cold]; CTrain env0 [w3] [hot]] /\
  (forall l, wiring_fixed cfg l) /\
  wisard_classify (snd (wrun true cfg [CTrain env0 [w3; w2; w1] [hot; cold; hot]])) [w1; w2] =
  wisard_classify (snd (wrun true cfg [CTrain env0 [w1; w2] [hot; cold]; CTrain env0 [w3] [hot]])) [w1; w2].
Proof.
  split; [|split; [|split; [intros l; right; discriminate|vm_compute; reflexivity]]].
  - change ([(hot, Train w1); (cold, Train w2); (hot, Train w3)] ≡ₚ rev [(hot, Train w1); (cold, Train w2); (hot, Train w3)]).
    apply Permutation_rev.
  - repeat constructor.
Qed.

(** C49: argument guards fire before anything is learned. *)
Theorem C49_train_guards : forall lhs_first env w x images labels,
  0 <= im_size x <= INT_MAX -> 1 <= w_addressSize w -> len (x :: images) <= INT_MAX -> len labels <= INT_MAX ->
  (ram_count (im_size x) (w_addressSize w) (w_completeAddressing w) < w_confidence w ->
     wisard_train lhs_first env w (x :: images) labels = (Throw confidence_exn, w)) /\
  (w_confidence w <= ram_count (im_size x) (w_addressSize w) (w_completeAddressing w) -> len (x :: images) <> len labels ->
     wisard_train lhs_first env w (x :: images) labels = (Throw sizes_exn, w)).
Proof. intros lhs env w x images labels H1 H2 H3 H4. destruct (train_guards lhs env w x images labels H1 H2 H3 H4) as (A & B & _). auto. Qed.
Print Assumptions C49_train_guards.
Theorem C49_leave_guard : forall w images labels,
  len images <= INT_MAX -> len labels <= INT_MAX -> len images <> len labels ->
  leaveMoreOut w images labels = (Throw sizes_exn, w).
Proof. exact leave_guard. Qed.
Print Assumptions C49_leave_guard.
Example C49_witness : fst (wisard_train true env0 cfg [w1; w2] [hot]) = Throw sizes_exn /\
  fst (wisard_train true env0 (Wisard 2 true false ∅ [] false true 2 false false false false 3 ∅) [w1] [hot]) = Throw confidence_exn /\
  fst (leaveMoreOut cfg [w1] []) = Throw sizes_exn.
Proof. vm_compute. auto. Qed.

(** C50: a batch whose example x under a known label l has the wrong length keeps exactly what
    the examples before it teach. *)
Theorem C50_failing_batch : forall lhs_first env w xs1 ls1 w1 x l d xs2 ls2,
  xs1 <> [] -> length xs1 = length ls1 -> length xs2 = length ls2 ->
  wisard_train lhs_first env w xs1 ls1 = (Ok tt, w1) ->
  w_discriminators w1 !! l = Some d -> s32 (im_size x) <> d_entrySize d ->
  wisard_train lhs_first env w (xs1 ++ x :: xs2) (ls1 ++ l :: ls2) = (Throw entry_exn, w1).
Proof. exact failing_batch. Qed.
Print Assumptions C50_failing_batch.
Theorem C50_failing_first : forall lhs_first env w x l d xs2 ls2 k, length xs2 = length ls2 ->
  calculateNumberOfRams (s32 (im_size x)) (w_addressSize w) (w_completeAddressing w) = Ok k -> w_confidence w <= k ->
  w_discriminators w !! l = Some d -> s32 (im_size x) <> d_entrySize d ->
  wisard_train lhs_first env w (x :: xs2) (l :: ls2) = (Throw entry_exn, w).
Proof. exact failing_first. Qed.
Print Assumptions C50_failing_first.
Example C50_witness : exists w' d, wisard_train true env0 cfg [w1; w2] [hot; cold] = (Ok tt, w') /\
  w_discriminators w' !! hot = Some d /\ s32 (im_size (vec_image [1; 0; 1])) <> d_entrySize d /\
  wisard_classify (snd (wisard_train true env0 cfg [w1; w2; vec_image [1; 0; 1]; w2] [hot; cold; hot; hot])) [w1; w2] = Ok [hot; cold].
Proof.
  eexists. eexists. split; [vm_compute; reflexivity|]. split; [vm_compute; reflexivity|]. split; [vm_compute; congruence|]. vm_compute. reflexivity.
Qed.

(** C51: train([], []) reads images[0]. *)
Theorem C51_empty_batch_refuted : forall lhs_first env w, wisard_train lhs_first env w [] [] = (UB UBIndex, w).
Proof. reflexivity. Qed.
Print Assumptions C51_empty_batch_refuted.
(** A non-empty batch makes no out-of-bounds access from any state whose labels are wired inside
    their entry, as reachable states are (second theorem). Missing (false): the empty batch. *)
Theorem C51_no_out_of_bounds_partial : forall lhs_first env w vs ls,
  (forall l, valid_draw (env l)) -> vs <> [] -> len vs <= INT_MAX -> len ls <= INT_MAX ->
  Forall (fun v => len v <= INT_MAX) vs -> (forall v l, v ∈ vs -> l ∈ ls -> inside w (len v) l) -> all_wired w ->
  fst (wisard_train lhs_first env w (vec_image <$> vs) ls) <> UB UBIndex.
Proof. exact train_no_oob. Qed.
Print Assumptions C51_no_out_of_bounds_partial.
Theorem C51_reachable_wired : forall lhs_first w0 n cs w,
  w_discriminators w0 = ∅ -> configured w0 n -> Forall (proper_call w0 n) cs ->
  len (all_examples cs) <= INT_MAX -> wrun lhs_first w0 cs = (Ok tt, w) -> all_wired w.
Proof. exact reachable_wired. Qed.
Print Assumptions C51_reachable_wired.
Example C51_witness : (forall l, inside cfg 4 l) /\ inside cfg 3 hot /\
  fst (wisard_train true env0 cfg (vec_image <$> [[1; 0; 1]]) [hot]) = Throw idx_len_exn.
Proof.
  assert (H : forall n l, inside cfg n l).
  { intros n l. unfold inside. cbn [w_mapping cfg]. rewrite lookup_empty. cbn. split; [vm_compute; congruence|]. repeat constructor; vm_compute; congruence. }
  split; [apply H|]. split; [apply H|]. vm_compute. reflexivity.
Qed.

(** C52: with the map entry evaluated first, a rejected first example of a new label makes
    later classifications of good images throw. *)
Theorem C52_ghost_refuted : exists w x l y, wisard_classify w [y] = Ok [hot] /\
  exists w', wisard_train true env0 w [x] [l] = (Throw addr_big_exn, w') /\ wisard_classify w' [y] = Throw entry_exn.
Proof.
  exists (snd (wisard_train true env0 (Wisard 4 true false ∅ [] false true 2 false false false false 0 ∅) [w1] [hot])), (vec_image [1; 0]), cold, w1.
  split; [vm_compute; reflexivity|]. eexists. split; [vm_compute; reflexivity|vm_compute; reflexivity].
Qed.
Print Assumptions C52_ghost_refuted.
(** With the other order of evaluation the state is unchanged, and the examples before the
    failing one are kept; with the entry first, exactly an empty discriminator for l is left. *)
Theorem C52_rejected_creation_partial : forall lhs_first env w x l e,
  w_discriminators w !! l = None -> construct_discriminator (env l) w l (s32 (im_size x)) = Throw e ->
  wisard_train1 lhs_first env w x l =
    (Throw e, if lhs_first then with_discriminators w (<[l := Disc 0 0 []]> (w_discriminators w)) else w).
Proof. exact failed_creation. Qed.
Print Assumptions C52_rejected_creation_partial.
Theorem C52_rejected_batch_partial : forall env w xs1 ls1 w1 x l e xs2 ls2,
  xs1 <> [] -> length xs1 = length ls1 -> length xs2 = length ls2 ->
  wisard_train false env w xs1 ls1 = (Ok tt, w1) -> w_discriminators w1 !! l = None ->
  construct_discriminator (env l) w1 l (s32 (im_size x)) = Throw e ->
  wisard_train false env w (xs1 ++ x :: xs2) (ls1 ++ l :: ls2) = (Throw e, w1).
Proof. exact failed_creation_batch. Qed.
Print Assumptions C52_rejected_batch_partial.
Example C52_witness : exists w', wisard_train false env0 cfg [w1] [hot] = (Ok tt, w') /\ w_discriminators w' !! cold = None /\
  construct_discriminator (env0 cold) w' cold (s32 (im_size (vec_image [1; 0; 1]))) = Throw idx_len_exn.
Proof. eexists. split; [vm_compute; reflexivity|]. split; vm_compute; reflexivity. Qed.

(** C53: leaveOneOut of a label never trained. *)
Theorem C53_leave_unknown : forall lhs_first w0 n cs w l x,
  w_discriminators w0 = ∅ -> configured w0 n -> Forall (proper_call w0 n) cs ->
  len (all_examples cs) <= INT_MAX -> wrun lhs_first w0 cs = (Ok tt, w) -> ~ trained l (all_examples cs) ->
  leaveOneOut w x l = (Ok tt, w).
Proof. exact leave_unknown. Qed.
Print Assumptions C53_leave_unknown.
Example C53_witness : ~ trained (lit "mild") (all_examples calls).
Proof.
  intros (x & H). unfold all_examples, calls in H. cbn in H.
  repeat (apply elem_of_cons in H as [H|H]; [try discriminate|]); try discriminate. inversion H.
Qed.

(** C54: mental images of a Wisard. *)
Theorem C54_mental_images : forall lhs_first w0 n cs,
  w_discriminators w0 = ∅ -> configured w0 n -> Forall (proper_call w0 n) cs -> len (all_examples cs) <= INT_MAX ->
  exists w (d0 : gmap str disc), wrun lhs_first w0 cs = (Ok tt, w) /\
    (forall l, is_Some (d0 !! l) <-> trained l (all_examples cs)) /\
    (forall l d, d0 !! l = Some d -> built w0 n l d) /\
    forall iter, good_iter iter ->
      (forall l d, d0 !! l = Some d -> Forall small (d_rams d) /\ len (all_examples cs) * total_inputs d <= INT_MAX) ->
      exists m, wisard_mental iter w = Ok m /\
        forall l, match d0 !! l with
              | None => m !! l = None
              | Some d => exists img, m !! l = Some img /\ len img = n /\
                  forall p, 0 <= p < n -> img !! Z.to_nat p = Some (mental_law d (history l (all_examples cs)) p)
              end.
Proof. exact mental_images. Qed.
Print Assumptions C54_mental_images.
Example C54_witness : rmap sorted_items (wisard_mental (fun m => map_to_list m) (snd (wrun true cfg calls))) =
  Ok [(cold, [0; 0; 1; 1]); (hot, [1; 1; 0; 0])].
Proof. vm_compute. reflexivity. Qed.

(** C55: in any session mixing updates (which may throw) and queries, removing the queries
    changes neither the outcome of any update nor the final state, and the answer to a query
    asked at the end is the same. Files on disk (huge json) are part of the session. *)
Theorem C55_queries_pure : forall lhs_first evs w f f',
  let '(outcomes, _, w1, _) := session lhs_first w f evs in
  let '(outcomes', _, w1', _) := session lhs_first w f' (filter is_update evs) in
  outcomes = outcomes' /\ w1 = w1'.
Proof. exact queries_pure. Qed.
Print Assumptions C55_queries_pure.
Example C55_witness :
  let '(outcomes, answers, w, _) := session true cfg (Fs ∅ (fun _ => true)) [ Ask (QClassify [w1]); Update (CTrain env0 [w1] [hot]); Ask (QClassify [w1]); Ask QJsonConfig;
                        Update (CTrain env0 [vec_image [1]] [hot]); Update (CTrain env0 [w2] [cold]) ] in
  outcomes = [Ok tt; Throw entry_exn; Ok tt] /\ length answers = 3%nat /\ wisard_classify w [w1; w2] = Ok [hot; cold].
Proof. vm_compute. auto. Qed.

(** C56: DataSet and list versions. *)
Theorem C56_train_dataset : forall lhs_first env w ds vs ls,
  (forall l, valid_draw (env l)) -> labelled ds ls -> len ls <= INT_MAX ->
  Forall2 bits_of vs (ds_data ds) -> (forall v l, v ∈ vs -> l ∈ ls -> inside w (len v) l) -> all_wired w ->
  wisard_train_ds lhs_first env w ds = wisard_train lhs_first env w (vec_image <$> vs) ls.
Proof. exact train_ds_lists. Qed.
Print Assumptions C56_train_dataset.
Theorem C56_classify_dataset : forall w ds vs, all_wired w -> Forall2 bits_of vs (ds_data ds) ->
  wisard_classify_ds w ds = wisard_classify w (vec_image <$> vs).
Proof. exact classify_ds_lists. Qed.
Print Assumptions C56_classify_dataset.
Example C56_witness : exists b1 b2, bits_of [1; 1; 0; 0] b1 /\ bits_of [0; 0; 1; 1] b2 /\
  let ds := ds_add (ds_add ds_empty b1 hot) b2 cold in
  labelled ds [hot; cold] /\ Forall2 bits_of [[1; 1; 0; 0]; [0; 0; 1; 1]] (ds_data ds) /\
  wisard_classify_ds (snd (wisard_train_ds true env0 cfg ds)) ds = Ok [hot; cold].
Proof.
  assert (H1 : bits_of [1; 1; 0; 0] (match bin_of_list [1; 1; 0; 0] with Ok b => b | _ => BinInput 0 [] end)).
  { split; [vm_compute; congruence|]. split; [|vm_compute; reflexivity]. repeat (apply Forall_cons; split; [unfold is_bit; auto|]). apply Forall_nil. exact I. }
  assert (H2 : bits_of [0; 0; 1; 1] (match bin_of_list [0; 0; 1; 1] with Ok b => b | _ => BinInput 0 [] end)).
  { split; [vm_compute; congruence|]. split; [|vm_compute; reflexivity]. repeat (apply Forall_cons; split; [unfold is_bit; auto|]). apply Forall_nil. exact I. }
  eexists. eexists. split; [exact H1|]. split; [exact H2|]. cbv zeta. split; [|split].
  - split; [reflexivity|]. intros [|[|i]] Hi; [vm_compute; reflexivity|vm_compute; reflexivity|cbn in Hi; lia].
  - constructor; [exact H1|]. constructor; [exact H2|]. constructor.
  - vm_compute. reflexivity.
Qed.
