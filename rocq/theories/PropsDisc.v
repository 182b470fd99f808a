(** Property theorems C26-C39: training, untraining, votes and mental images of a discriminator.
    Vocabulary in SpecDisc.v; [all_valid d h]: every image of the history is valid for d. *)
From Verif Require Import Prelude Bytes Base64 Utils BinInput Ram Json Fs RamData Disc SpecBin SpecDisc.
From Verif Require Import CtorFacts DiscFacts.

(** A concrete discriminator over 5 pixels in base 3 and three valid images, used to show
    that the hypotheses below can be met together. *)
Definition demo : disc := match disc_new some_draw 2 5 true true [] [[0; 2; 4]; [1; 3]] 3 with Ok d => d | _ => disc_default end.
Definition img1 := vec_image [2; 0; 1; 2; 0].
Definition img2 := vec_image [2; 1; 1; 0; 0].
Definition img0 := vec_image [0; 0; 0; 0; 0].
Lemma demo_constructed : constructed demo.
Proof.
  exists some_draw, 2, 5, true, true, [], [[0; 2; 4]; [1; 3]], 3.
  split; [apply some_draw_valid|]. unfold is_int, INT_MIN, INT_MAX.
  split; [lia|]. split; [lia|]. split; [lia|]. split; [vm_compute; congruence|].
  split; [repeat constructor; vm_compute; congruence|]. vm_compute. reflexivity.
Qed.
Lemma demo_valid : valid_image demo img1 /\ valid_image demo img2 /\ valid_image demo img0.
Proof.
  repeat split; repeat constructor; eexists; (split; [vm_compute; reflexivity|cbn; lia]).
Qed.
Lemma demo_history : all_valid demo [Train img1; Untrain img2; Train img2; Train img1; Untrain img1] /\
  run demo [Train img1; Untrain img2; Train img2; Train img1; Untrain img1] =
    (Ok tt, snd (run demo [Train img1; Untrain img2; Train img2; Train img1; Untrain img1])).
Proof.
  destruct demo_valid as (H1 & H2 & _). split; [|vm_compute; reflexivity].
  repeat (apply Forall_cons; split; [assumption|]). apply Forall_nil. exact I.
Qed.

(** C26: votes after training only. *)
Theorem C26_votes_count_matching : forall d0 xs x,
  constructed d0 -> Forall (valid_image d0) xs -> valid_image d0 x -> len xs <= INT_MAX ->
  exists d, disc_train_all d0 xs = (Ok tt, d) /\
    disc_classify d x = Ok ((fun r =>
      if r_ignoreZero r && bool_decide (all_zero (r_addresses r) x) then 0
      else count_if (fun y => bool_decide (agree (r_addresses r) x y)) xs) <$> d_rams d0).
Proof. exact votes_training. Qed.
Print Assumptions C26_votes_count_matching.
Example C26_witness : disc_classify (snd (disc_train_all demo [img1; img2; img1])) img1 = Ok [3; 2].
Proof. vm_compute. reflexivity. Qed.

(** C27: votes after any history of train and untrain calls. *)
Theorem C27_votes_history : forall d0 h x,
  constructed d0 -> all_valid d0 h -> valid_image d0 x -> len h <= INT_MAX ->
  exists d, run d0 h = (Ok tt, d) /\ disc_classify d x = Ok ((fun r => vote_due r h x) <$> d_rams d0).
Proof. exact votes_history. Qed.
Print Assumptions C27_votes_history.
Example C27_witness : exists d, run demo [Untrain img2; Train img1; Untrain img2; Untrain img2] = (Ok tt, d) /\
  disc_classify d img2 = Ok [-1; 0] /\ disc_classify d img1 = Ok [-1; 1].
Proof. eexists. split; [vm_compute; reflexivity|]. vm_compute. auto. Qed.

(** C28: in every reachable state, train(x); untrain(x) restores counter, votes and mental image. *)
Theorem C28_untrain_undoes_train : forall d0 h d x,
  constructed d0 -> all_valid d0 h -> valid_image d0 x -> len h + 2 <= INT_MAX -> run d0 h = (Ok tt, d) ->
  exists d1 d2, disc_train d x = (Ok tt, d1) /\ disc_untrain d1 x = (Ok tt, d2) /\
    getNumberOfTrainings d2 = getNumberOfTrainings d /\
    (forall y, valid_image d0 y -> disc_classify d2 y = disc_classify d y) /\
    (forall iter, good_iter iter -> wired_inside d0 -> 0 <= d_entrySize d0 -> (len h + 2) * total_inputs d0 <= INT_MAX ->
       disc_mental iter d2 = disc_mental iter d).
Proof. exact undo. Qed.
Print Assumptions C28_untrain_undoes_train.
Example C28_witness : wired_inside demo /\ 0 <= d_entrySize demo /\ (len [Train img1; Untrain img2; Train img2; Train img1; Untrain img1] + 2) * total_inputs demo <= INT_MAX.
Proof. split; [repeat constructor; vm_compute; congruence|]. split; [vm_compute; congruence|]. vm_compute. congruence. Qed.

(** C29: from every reachable state, any order of the same training images leads to the same
    state (all members, hence the same votes, mental image and stored contents). *)
Theorem C29_training_order : forall d0 h d xs ys,
  constructed d0 -> all_valid d0 h -> Forall (valid_image d0) xs -> xs ≡ₚ ys ->
  len h + len xs <= INT_MAX -> run d0 h = (Ok tt, d) ->
  exists d', disc_train_all d xs = (Ok tt, d') /\ disc_train_all d ys = (Ok tt, d').
Proof. exact order_irrelevant. Qed.
Print Assumptions C29_training_order.
Example C29_witness : [img1; img2; img0] ≡ₚ [img0; img1; img2] /\ Forall (valid_image demo) [img1; img2; img0].
Proof.
  destruct demo_valid as (H1 & H2 & H3). split; [|repeat (apply Forall_cons; split; [assumption|]); apply Forall_nil; exact I].
  etransitivity; [apply perm_skip, perm_swap|apply perm_swap].
Qed.

(** C30: bounds and monotonicity of votes under training. *)
Theorem C30_votes_bounded : forall d0 xs d x vs,
  constructed d0 -> Forall (valid_image d0) xs -> valid_image d0 x -> len xs < INT_MAX ->
  disc_train_all d0 xs = (Ok tt, d) -> disc_classify d x = Ok vs ->
  Forall (fun v => 0 <= v <= len xs) vs /\
  (forall y d' vs', valid_image d0 y -> disc_train d y = (Ok tt, d') -> disc_classify d' x = Ok vs' ->
     Forall2 (fun v v' => v <= v' <= v + 1) vs vs') /\
  (x ∈ xs -> Forall (fun r => r_ignoreZero r = false \/ ~ all_zero (r_addresses r) x) (d_rams d0) ->
     Forall (fun v => 1 <= v) vs).
Proof. exact votes_bounded. Qed.
Print Assumptions C30_votes_bounded.
Example C30_witness : exists d, disc_train_all demo [img1; img2] = (Ok tt, d) /\ disc_classify d img1 = Ok [2; 1].
Proof. eexists. split; [vm_compute; reflexivity|vm_compute; reflexivity]. Qed.

(** C31: entry size guard (sizes are compared as ints). *)
Theorem C31_entry_size_guard : forall d x, s32 (im_size x) <> d_entrySize d ->
  disc_train d x = (Throw entry_exn, d) /\ disc_untrain d x = (Throw entry_exn, d) /\ disc_classify d x = Throw entry_exn.
Proof. exact size_guard. Qed.
Print Assumptions C31_entry_size_guard.
Example C31_witness : s32 (im_size (vec_image [1; 0; 1; 1])) <> d_entrySize demo.
Proof. vm_compute. congruence. Qed.

(** C32: on an image of the right length whose read positions exist, exactly the values >= base
    are refused. [unsaturated]: no counter is at INT_MAX (see C39); every state reached by fewer
    than INT_MAX valid calls is. *)
Theorem C32_pixel_guard : forall d x,
  s32 (im_size x) = d_entrySize d -> readable d x ->
  (too_big d x -> disc_classify d x = Throw pos_exn) /\
  (~ too_big d x -> exists vs, disc_classify d x = Ok vs) /\
  (unsaturated d -> too_big d x -> exists d', disc_train d x = (Throw pos_exn, d')) /\
  (unsaturated d -> ~ too_big d x -> exists d', disc_train d x = (Ok tt, d')).
Proof. exact pixel_guard. Qed.
Print Assumptions C32_pixel_guard.
Theorem C32_reachable_unsaturated : forall d0 h d,
  constructed d0 -> all_valid d0 h -> len h < INT_MAX -> run d0 h = (Ok tt, d) -> unsaturated d.
Proof. exact reach_unsaturated. Qed.
Print Assumptions C32_reachable_unsaturated.
Example C32_witness : readable demo (vec_image [0; 7; 0; 0; 0]) /\ too_big demo (vec_image [0; 7; 0; 0; 0]) /\ ~ too_big demo img1.
Proof.
  split; [repeat constructor; eexists; vm_compute; reflexivity|]. split.
  - apply Exists_cons_tl, Exists_cons_hd, Exists_cons_hd. exists 7. split; [reflexivity|cbn; lia].
  - intros H. apply Exists_cons in H as [H|H]; [|apply Exists_cons in H as [H|H]; [|inversion H]];
      repeat (apply Exists_cons in H as [(v & E & Hv)|H]; [vm_compute in E; injection E as <-; cbn in Hv; lia|]); inversion H.
Qed.

(** C33: a rejected image does leave a trace: here one training is counted and the first RAM learned. *)
Theorem C33_reject_traceless_refuted : exists d1,
  disc_train demo (vec_image [1; 7; 0; 0; 0]) = (Throw pos_exn, d1) /\
  getNumberOfTrainings demo = 0 /\ getNumberOfTrainings d1 = 1 /\
  disc_classify demo (vec_image [1; 0; 0; 0; 0]) = Ok [0; 0] /\ disc_classify d1 (vec_image [1; 0; 0; 0; 0]) = Ok [1; 0].
Proof. eexists. split; [vm_compute; reflexivity|]. vm_compute. auto. Qed.
Print Assumptions C33_reject_traceless_refuted.
(** Exact trace: the counter advances and exactly the RAMs before the first one that reads a
    too large pixel learn the image. Missing (false): no trace. For a rejection because of the
    length there is none, see C31. *)
Theorem C33_reject_effect_partial : forall d x,
  s32 (im_size x) = d_entrySize d -> readable d x -> unsaturated d -> too_big d x ->
  exists k rk, d_rams d !! k = Some rk /\
    Exists (fun a => exists v, im_get x a = Ok v /\ r_base rk <= v) (r_addresses rk) /\
    disc_train d x = (Throw pos_exn, Disc (d_entrySize d) (d_count d + 1)
      (((fun r => snd (ram_train r x)) <$> take k (d_rams d)) ++ drop k (d_rams d))) /\
    Forall (fun r => fst (ram_train r x) = Ok tt) (take k (d_rams d)).
Proof. exact reject_effect. Qed.
Print Assumptions C33_reject_effect_partial.

(** C34: negative pixels are accepted, and even confused with other images: here (-1,1,0,1) selects
    the same cells as (1,0,0,1) in base 2. *)
Theorem C34_negative_pixel_refuted : exists d d',
  disc_new some_draw 2 4 false true [] [[0; 1]; [2; 3]] 2 = Ok d /\
  disc_train d (vec_image [-1; 1; 0; 1]) = (Ok tt, d') /\ disc_classify d' (vec_image [1; 0; 0; 1]) = Ok [1; 1].
Proof. eexists. eexists. split; [vm_compute; reflexivity|]. split; [vm_compute; reflexivity|vm_compute; reflexivity]. Qed.
Print Assumptions C34_negative_pixel_refuted.
(** Values >= base are rejected. Missing (false): negative values. *)
Theorem C34_big_pixel_partial : forall d x,
  s32 (im_size x) = d_entrySize d -> readable d x -> unsaturated d -> too_big d x ->
  exists d', disc_train d x = (Throw pos_exn, d').
Proof. exact big_pixel. Qed.
Print Assumptions C34_big_pixel_partial.

(** C35: the training counter. *)
Theorem C35_training_counter : forall d0 h d,
  constructed d0 -> all_valid d0 h -> len h <= INT_MAX -> run d0 h = (Ok tt, d) ->
  getNumberOfTrainings d = count_if (fun o => match o with Train _ => true | _ => false end) h -
                           count_if (fun o => match o with Untrain _ => true | _ => false end) h.
Proof. exact counter. Qed.
Print Assumptions C35_training_counter.

(** C36: mental image after training, whatever the hash map's enumeration order. The bound
    |xs| * inputs <= INT_MAX excludes overflow of the accumulated ints. *)
Theorem C36_mental_image : forall iter d0 xs,
  good_iter iter -> constructed d0 -> 0 <= d_entrySize d0 -> wired_inside d0 ->
  Forall small (d_rams d0) -> Forall (valid_image d0) xs -> len xs <= INT_MAX -> len xs * total_inputs d0 <= INT_MAX ->
  exists d l, disc_train_all d0 xs = (Ok tt, d) /\ disc_mental iter d = Ok l /\ len l = d_entrySize d0 /\
    forall p, 0 <= p < d_entrySize d0 -> l !! Z.to_nat p = Some (wires d0 p * active p xs).
Proof. exact mental_training. Qed.
Print Assumptions C36_mental_image.
(** The same for every history of train and untrain calls ([mental_law], SpecDisc.v). *)
Theorem C36_mental_image_history : forall iter d0 h,
  good_iter iter -> constructed d0 -> 0 <= d_entrySize d0 -> wired_inside d0 ->
  Forall small (d_rams d0) -> all_valid d0 h -> len h <= INT_MAX -> len h * total_inputs d0 <= INT_MAX ->
  exists d l, run d0 h = (Ok tt, d) /\ disc_mental iter d = Ok l /\ len l = d_entrySize d0 /\
    forall p, 0 <= p < d_entrySize d0 -> l !! Z.to_nat p = Some (mental_law d0 h p).
Proof. exact mental_history. Qed.
Print Assumptions C36_mental_image_history.
Example C36_witness : good_iter (fun m => map_to_list m) /\ 0 <= d_entrySize demo /\ Forall small (d_rams demo) /\
  disc_mental (fun m => map_to_list m) (snd (disc_train_all demo [img1; img2; img1])) = Ok [3; 1; 3; 2; 0].
Proof.
  split; [intros m; reflexivity|]. split; [vm_compute; congruence|]. split; [repeat constructor; vm_compute; congruence|]. vm_compute. reflexivity.
Qed.

(** C37: with 32 address bits the mental image is wrong: pixel 31 was on in the only trained image. *)
Theorem C37_mental_wide_refuted : exists d d' l,
  disc_new some_draw 32 32 false true [] [] 2 = Ok d /\
  disc_train d (vec_image (replicate 31 0 ++ [1])) = (Ok tt, d') /\
  disc_mental (fun m => map_to_list m) d' = Ok l /\ l !! 31%nat = Some 0.
Proof. eexists. eexists. eexists. split; [vm_compute; reflexivity|]. split; [vm_compute; reflexivity|]. split; [vm_compute; reflexivity|vm_compute; reflexivity]. Qed.
Print Assumptions C37_mental_wide_refuted.
(** The law holds up to 2^31 addresses per RAM. Missing (false): larger accepted RAMs. *)
Theorem C37_mental_small_partial : forall iter d0 xs,
  good_iter iter -> constructed d0 -> 0 <= d_entrySize d0 -> wired_inside d0 ->
  Forall (fun r => r_base r ^ len (r_addresses r) <= 2147483648) (d_rams d0) ->
  Forall (valid_image d0) xs -> len xs <= INT_MAX -> len xs * total_inputs d0 <= INT_MAX ->
  exists d l, disc_train_all d0 xs = (Ok tt, d) /\ disc_mental iter d = Ok l /\ len l = d_entrySize d0 /\
    forall p, 0 <= p < d_entrySize d0 -> l !! Z.to_nat p = Some (wires d0 p * active p xs).
Proof. exact mental_training. Qed.
Print Assumptions C37_mental_small_partial.

(** C38: BinInput and list images are interchangeable. *)
Theorem C38_images_interchangeable : forall d l b,
  wired_inside d -> len l <= INT_MAX -> Forall is_bit l -> bin_of_list l = Ok b ->
  disc_train d (bin_image b) = disc_train d (vec_image l) /\ disc_classify d (bin_image b) = disc_classify d (vec_image l).
Proof. exact interchangeable. Qed.
Print Assumptions C38_images_interchangeable.
Example C38_witness : wired_inside demo /\ Forall is_bit [1; 0; 1; 1; 0] /\ exists b, bin_of_list [1; 0; 1; 1; 0] = Ok b.
Proof. split; [repeat constructor; vm_compute; congruence|]. split; [unfold is_bit; repeat (apply Forall_cons; split; [auto|]); apply Forall_nil; exact I|]. eexists. vm_compute. reflexivity. Qed.

(** C39: INT_MAX trainings of any valid image are accepted, the next one is signed overflow. *)
Theorem C39_overflow_refuted : forall d0 x, constructed d0 -> valid_image d0 x ->
  exists xs d, Forall (valid_image d0) xs /\ disc_train_all d0 xs = (Ok tt, d) /\ fst (disc_train d x) = UB UBOverflow.
Proof. exact overflow_reachable. Qed.
Print Assumptions C39_overflow_refuted.
(** Up to INT_MAX trainings nothing overflows. Missing (false): longer sequences. *)
Theorem C39_no_overflow_partial : forall d0 xs, constructed d0 -> Forall (valid_image d0) xs -> len xs <= INT_MAX ->
  exists d, disc_train_all d0 xs = (Ok tt, d).
Proof. exact no_overflow_below. Qed.
Print Assumptions C39_no_overflow_partial.
