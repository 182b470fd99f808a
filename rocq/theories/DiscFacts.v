(** Facts behind the property theorems of PropsDisc.v. *)
From Verif Require Import Prelude Bytes Base64 Utils BinInput Ram Json Fs RamData Disc SpecBin SpecDisc.
From Verif Require Import BytesProofs BinProofs UtilsProofs TextProofs DiscCtorProofs CtorFacts RamProofs DiscProofs MentalProofs MentalHistory.

Definition all_valid (d : disc) (h : list dop) : Prop := Forall (fun o => valid_image d (op_image o)) h.

Lemma run_inv d0 h d : constructed d0 -> all_valid d0 h -> len h <= INT_MAX -> run d0 h = (Ok tt, d) -> after d0 h d.
Proof.
  intros Hc Hv Hl E. apply constructed_fresh in Hc. destruct (run_after d0 h Hc Hv Hl) as (d' & E' & Ha). congruence.
Qed.

Lemma train_all_run d xs : disc_train_all d xs = run d (Train <$> xs).
Proof.
  unfold disc_train_all, run. revert d. induction xs as [|x xs IH]; intros d; [reflexivity|]. rewrite fmap_cons. cbn [efor dstep].
  destruct (disc_train d x) as [[| | |] d']; cbn [ebind]; auto.
Qed.
Lemma valid_train d xs : Forall (valid_image d) xs -> all_valid d (Train <$> xs).
Proof. intros H. apply Forall_fmap. exact H. Qed.
Lemma len_fmap {A B} (f : A -> B) l : len (f <$> l) = len l.
Proof. unfold len. rewrite fmap_length. reflexivity. Qed.

Lemma trainings_train addrs x xs : trainings addrs x (Train <$> xs) = count_if (fun y => bool_decide (agree addrs x y)) xs.
Proof. unfold trainings. rewrite count_if_fmap. reflexivity. Qed.
Lemma effective_app_train addrs x h xs : effective_untrainings addrs x (h ++ (Train <$> xs)) = effective_untrainings addrs x h.
Proof.
  induction xs as [|y xs IH] using rev_ind; [rewrite app_nil_r; reflexivity|].
  rewrite fmap_app, app_assoc. cbn [fmap list_fmap]. rewrite effective_snoc, IH. lia.
Qed.
Lemma vote_train r x xs : vote_due r (Train <$> xs) x =
  if r_ignoreZero r && bool_decide (all_zero (r_addresses r) x) then 0
  else count_if (fun y => bool_decide (agree (r_addresses r) x y)) xs.
Proof.
  unfold vote_due. rewrite trainings_train, <- (app_nil_l (Train <$> xs)) at 1. rewrite effective_app_train. cbn [effective_untrainings].
  rewrite Z.sub_0_r. reflexivity.
Qed.

(** C26, C27 *)
Lemma votes_history d0 h x : constructed d0 -> all_valid d0 h -> valid_image d0 x -> len h <= INT_MAX ->
  exists d, run d0 h = (Ok tt, d) /\ disc_classify d x = Ok ((fun r => vote_due r h x) <$> d_rams d0).
Proof.
  intros Hc Hv Hx Hl. apply constructed_fresh in Hc. destruct (run_after d0 h Hc Hv Hl) as (d & E & Ha).
  exists d. split; [exact E|]. apply classify_after; assumption.
Qed.
Lemma votes_training d0 xs x : constructed d0 -> Forall (valid_image d0) xs -> valid_image d0 x -> len xs <= INT_MAX ->
  exists d, disc_train_all d0 xs = (Ok tt, d) /\
    disc_classify d x = Ok ((fun r =>
      if r_ignoreZero r && bool_decide (all_zero (r_addresses r) x) then 0
      else count_if (fun y => bool_decide (agree (r_addresses r) x y)) xs) <$> d_rams d0).
Proof.
  intros Hc Hv Hx Hl. destruct (votes_history d0 (Train <$> xs) x Hc (valid_train _ _ Hv) Hx) as (d & E & Hd); [rewrite len_fmap; exact Hl|].
  exists d. rewrite train_all_run. split; [exact E|]. rewrite Hd. f_equal. apply list_fmap_ext. intros i r _. apply vote_train.
Qed.

(** C28 *)
Lemma vote_undo r h x y : vote_due r (h ++ [Train x; Untrain x]) y = vote_due r h y.
Proof.
  unfold vote_due. destruct (_ && _); [reflexivity|].
  change [Train x; Untrain x] with ([Train x] ++ [Untrain x]). rewrite app_assoc.
  rewrite !trainings_snoc, !effective_snoc, trainings_snoc.
  assert (0 <= trainings (r_addresses r) y h) by apply count_if_range.
  destruct (bool_decide (agree (r_addresses r) y x)); cbn [andb]; [|lia].
  destruct (Z.ltb_spec 0 (trainings (r_addresses r) y h + 1)); lia.
Qed.
Lemma share_undo r0 h r r' o : ram_shape r0 -> ram_after h r0 r -> ram_after (h ++ [Train o; Untrain o]) r0 r' ->
  valid_on r0 o -> len h + 2 <= INT_MAX -> pieces_of r' = pieces_of r.
Proof.
  intros Hs [Hsame Hst] [Hsame' Hst'] Hv Hl.
  destruct (ram_step_spec r0 h r (Train o) Hs Hsame Hst Hv) as (m1 & E1 & H1); [lia|].
  assert (same_ram r0 (with_positions r m1)) as Hsame1 by (destruct Hsame; split; assumption).
  destruct (ram_step_spec r0 (h ++ [Train o]) (with_positions r m1) (Untrain o) Hs Hsame1 H1 Hv) as (m2 & E2 & H2).
  { rewrite len_app, len_cons, len_nil. lia. }
  rewrite <- app_assoc in H2. cbn [app] in H2. pose proof (cell_state_det _ _ _ _ H2 Hst') as Em.
  destruct (valid_index r0 _ Hs Hv) as (ds & _ & _ & Ei & _). set (i := enc (r_base r0) ds) in *.
  unfold pieces_of. rewrite (sr_addresses _ _ Hsame), (sr_addresses _ _ Hsame'), <- Em.
  apply imap_ext. intros k a _. f_equal. rewrite (share_same _ _ _ Hsame), (share_same _ _ _ Hsame').
  cbn [ram_step] in E1, E2. unfold ram_train in E1. unfold ram_untrain in E2.
  rewrite (same_index _ _ _ Hsame), Ei in E1. rewrite (same_index _ _ _ Hsame1), Ei in E2. cbn [with_positions r_positions] in E2.
  destruct (r_positions r !! i) as [v|] eqn:Ev.
  - destruct (int_of_cases (v + 1)) as [Ec|Ec]; rewrite Ec in E1; [|discriminate]. injection E1 as <-.
    rewrite lookup_insert in E2. destruct (int_of_cases (v + 1 - 1)) as [Ec'|Ec']; rewrite Ec' in E2; [|discriminate].
    injection E2 as <-. rewrite insert_insert, insert_id; [reflexivity|]. rewrite Ev. f_equal. lia.
  - injection E1 as <-. rewrite lookup_insert in E2. destruct (int_of_cases (1 - 1)) as [Ec'|Ec']; rewrite Ec' in E2; [|discriminate].
    injection E2 as <-. rewrite insert_insert, msum_insert, Ev. unfold share at 1. destruct (lit_digit _ _ _); lia.
Qed.

Lemma undo d0 h d x : constructed d0 -> all_valid d0 h -> valid_image d0 x -> len h + 2 <= INT_MAX -> run d0 h = (Ok tt, d) ->
  exists d1 d2, disc_train d x = (Ok tt, d1) /\ disc_untrain d1 x = (Ok tt, d2) /\
    getNumberOfTrainings d2 = getNumberOfTrainings d /\
    (forall y, valid_image d0 y -> disc_classify d2 y = disc_classify d y) /\
    (forall iter, good_iter iter -> wired_inside d0 -> 0 <= d_entrySize d0 -> (len h + 2) * total_inputs d0 <= INT_MAX ->
       disc_mental iter d2 = disc_mental iter d).
Proof.
  intros Hc Hv Hx Hl E. pose proof (run_inv d0 h d Hc Hv ltac:(lia) E) as Ha. apply constructed_fresh in Hc.
  destruct (dstep_after d0 h d (Train x) Hc Ha Hx) as (d1 & E1 & Ha1); [lia|].
  destruct (dstep_after d0 _ d1 (Untrain x) Hc Ha1 Hx) as (d2 & E2 & Ha2); [rewrite len_app, len_cons, len_nil; lia|].
  rewrite <- app_assoc in Ha2. cbn [app] in Ha2. exists d1, d2. split; [exact E1|]. split; [exact E2|]. split; [|split].
  - unfold getNumberOfTrainings. rewrite (af_count _ _ _ Ha2), (af_count _ _ _ Ha).
    change [Train x; Untrain x] with ([Train x] ++ [Untrain x]). rewrite app_assoc, !signed_count_snoc. lia.
  - intros y Hy. rewrite (classify_after d0 _ d2 y Hc Ha2 Hy), (classify_after d0 _ d y Hc Ha Hy). f_equal.
    apply list_fmap_ext. intros i r _. apply vote_undo.
  - intros iter Hi Hw He Hb.
    assert (all_valid d0 (h ++ [Train x; Untrain x])) as Hv2 by (apply Forall_app; split; [exact Hv|]; repeat constructor; apply Hx).
    assert (len (h ++ [Train x; Untrain x]) = len h + 2) as Hl2 by (rewrite len_app; reflexivity).
    assert (0 <= total_inputs d0) as Ht by apply len_nonneg.
    destruct (mental_after iter d0 h d Hi Hc He Hw Hv ltac:(lia) ltac:(lia) Ha) as (l & -> & Hll & Hg & _).
    destruct (mental_after iter d0 _ d2 Hi Hc He Hw Hv2 ltac:(lia) ltac:(lia) Ha2) as (l2 & -> & Hll2 & Hg2 & _).
    f_equal. assert (pieces_of <$> d_rams d2 = pieces_of <$> d_rams d) as Ep.
    { destruct Hc as [_ Hs]. destruct Hx as [_ Hx]. destruct Ha as [_ _ Ha]. destruct Ha2 as [_ _ Ha2]. clear -Hs Hx Ha Ha2 Hl.
      revert Ha2. generalize (d_rams d2) as rs2. induction Ha as [|r0 r rs0 rs Hr Ha IH]; intros rs2 Ha2.
      - inversion Ha2. reflexivity.
      - inversion Ha2 as [|? r2 ? rs2' Hr2 Ha2' E1 E2]. subst. apply Forall_cons in Hs as [[Hs _] Hss]. apply Forall_cons in Hx as [Hx Hxx].
        rewrite !fmap_cons. f_equal; [|apply IH; assumption]. apply (share_undo r0 h r r2 x Hs Hr Hr2 Hx). lia. }
    rewrite Ep in Hg2. apply list_eq. intros i. unfold len in *.
    destruct (decide (i < length l)%nat) as [Hlt|Hge].
    + rewrite <- (Nat2Z.id i), (Hg2 (Z.of_nat i)), (Hg (Z.of_nat i)) by lia. reflexivity.
    + rewrite !lookup_ge_None_2 by lia. reflexivity.
Qed.

(** C29 *)
Lemma cell_perm addrs h xs ys x : xs ≡ₚ ys -> cell addrs (h ++ (Train <$> xs)) x = cell addrs (h ++ (Train <$> ys)) x.
Proof.
  intros Hp. unfold cell. rewrite !effective_app_train. unfold trainings. rewrite !count_if_app.
  rewrite (count_if_perm _ (Train <$> xs) (Train <$> ys)) by (apply fmap_Permutation, Hp). reflexivity.
Qed.
Lemma rams_after_ext h h' rs0 rs rs' : (forall addrs x, cell addrs h x = cell addrs h' x) ->
  Forall2 (ram_after h) rs0 rs -> Forall2 (ram_after h') rs0 rs' -> rs = rs'.
Proof.
  intros Hc H. revert rs'. induction H as [|r0 r rs0 rs [Hs Hst] H IH]; intros rs' H'.
  - inversion H'. reflexivity.
  - inversion H' as [|? r' ? rs'' [Hs' Hst'] H'' E1 E2]. subst. f_equal; [|apply IH, H''].
    pose proof (cell_state_ext r0 h h' _ _ (Hc _) Hst Hst') as E. destruct r, r', Hs, Hs'. cbn in *. congruence.
Qed.
Lemma order_irrelevant d0 h d xs ys : constructed d0 -> all_valid d0 h -> Forall (valid_image d0) xs -> xs ≡ₚ ys ->
  len h + len xs <= INT_MAX -> run d0 h = (Ok tt, d) ->
  exists d', disc_train_all d xs = (Ok tt, d') /\ disc_train_all d ys = (Ok tt, d').
Proof.
  intros Hc Hv Hx Hp Hl E. pose proof (len_nonneg xs). pose proof (run_inv d0 h d Hc Hv ltac:(lia) E) as Ha. apply constructed_fresh in Hc.
  rewrite !train_all_run.
  assert (Forall (valid_image d0) ys) as Hy by (rewrite <- Hp; exact Hx).
  assert (len ys = len xs) as Hly by (unfold len; rewrite (Permutation_length Hp); reflexivity).
  destruct (run_after_gen d0 h d (Train <$> xs) Hc Ha (valid_train _ _ Hx)) as (d1 & E1 & Ha1); [rewrite len_fmap; lia|].
  destruct (run_after_gen d0 h d (Train <$> ys) Hc Ha (valid_train _ _ Hy)) as (d2 & E2 & Ha2); [rewrite len_fmap; lia|].
  exists d1. split; [exact E1|]. rewrite E2. f_equal.
  destruct Ha1 as [A1 B1 C1], Ha2 as [A2 B2 C2]. destruct d1 as [e1 c1 rs1], d2 as [e2 c2 rs2]. cbn in *.
  assert (rs2 = rs1) as -> by (eapply rams_after_ext; [intros addrs x; apply cell_perm; symmetry; exact Hp|exact C2|exact C1]).
  f_equal; [congruence|]. rewrite B1, B2. unfold signed_count. rewrite !count_if_app.
  rewrite !(count_if_perm _ (Train <$> ys) (Train <$> xs)) by (apply fmap_Permutation; symmetry; exact Hp). reflexivity.
Qed.

(** C30 *)
Lemma votes_bounded d0 xs d x vs : constructed d0 -> Forall (valid_image d0) xs -> valid_image d0 x -> len xs < INT_MAX ->
  disc_train_all d0 xs = (Ok tt, d) -> disc_classify d x = Ok vs ->
  Forall (fun v => 0 <= v <= len xs) vs /\
  (forall y d' vs', valid_image d0 y -> disc_train d y = (Ok tt, d') -> disc_classify d' x = Ok vs' ->
     Forall2 (fun v v' => v <= v' <= v + 1) vs vs') /\
  (x ∈ xs -> Forall (fun r => r_ignoreZero r = false \/ ~ all_zero (r_addresses r) x) (d_rams d0) -> Forall (fun v => 1 <= v) vs).
Proof.
  intros Hc Hv Hx Hl E Ev.
  destruct (votes_training d0 xs x Hc Hv Hx ltac:(lia)) as (d1 & E1 & Hd1). rewrite E in E1. injection E1 as <-.
  rewrite Hd1 in Ev. injection Ev as <-. split; [|split].
  - apply Forall_fmap, Forall_true. intros r. unfold compose. pose proof (len_nonneg xs). destruct (_ && _); [lia|]. apply count_if_range.
  - intros y d' vs' Hy Ey Ev'.
    assert (disc_train_all d0 (xs ++ [y]) = (Ok tt, d')) as E'.
    { unfold disc_train_all in *. rewrite efor_app, E. cbn [ebind efor]. rewrite Ey. reflexivity. }
    destruct (votes_training d0 (xs ++ [y]) x Hc) as (d2 & E2 & Hd2); [apply Forall_app; auto|exact Hx|rewrite len_app, len_cons, len_nil; lia|].
    rewrite E' in E2. injection E2 as <-. rewrite Hd2 in Ev'. injection Ev' as <-.
    apply Forall2_fmap_2. apply Forall_Forall2_diag. apply Forall_true. intros r. destruct (_ && _); [lia|].
    rewrite count_if_app, count_if_cons, count_if_nil. destruct (bool_decide _); lia.
  - intros Hin Hz. apply Forall_fmap. eapply Forall_impl; [exact Hz|]. intros r Hr. unfold compose.
    assert (r_ignoreZero r && bool_decide (all_zero (r_addresses r) x) = false) as ->.
    { destruct Hr as [->|Hr]; [reflexivity|]. rewrite bool_decide_eq_false_2 by exact Hr. apply andb_false_r. }
    apply Z.lt_succ_r. assert (0 < count_if (fun y => bool_decide (agree (r_addresses r) x y)) xs); [|lia].
    apply count_if_pos. exists x. split; [exact Hin|]. apply bool_decide_eq_true_2, agree_refl.
Qed.

(** C31 *)
Lemma size_guard d x : s32 (im_size x) <> d_entrySize d ->
  disc_train d x = (Throw entry_exn, d) /\ disc_untrain d x = (Throw entry_exn, d) /\ disc_classify d x = Throw entry_exn.
Proof.
  intros H. unfold disc_train, disc_untrain, disc_classify, checkEntrySize.
  destruct (Z.eqb_spec (d_entrySize d) (s32 (im_size x))); [congruence|]. auto.
Qed.

(** C32 *)
Definition readable (d : disc) (x : image) : Prop :=
  Forall (fun r => Forall (fun a => exists v, im_get x a = Ok v) (r_addresses r)) (d_rams d).
Definition too_big (d : disc) (x : image) : Prop :=
  Exists (fun r => Exists (fun a => exists v, im_get x a = Ok v /\ r_base r <= v) (r_addresses r)) (d_rams d).

Lemma readable_reads x addrs : Forall (fun a => exists v, im_get x a = Ok v) addrs -> exists ds, reads x addrs ds.
Proof. induction 1 as [|a addrs (v & Ha) _ (ds & H)]; [exists []; constructor|]. exists (v :: ds). constructor; auto. Qed.
Lemma getIndex_cases r x : Forall (fun a => exists v, im_get x a = Ok v) (r_addresses r) ->
  (Exists (fun a => exists v, im_get x a = Ok v /\ r_base r <= v) (r_addresses r) /\ getIndex r x = Throw pos_exn) \/
  (~ Exists (fun a => exists v, im_get x a = Ok v /\ r_base r <= v) (r_addresses r) /\ exists i, getIndex r x = Ok i).
Proof.
  intros H. destruct (readable_reads x _ H) as (ds & Hr). destruct (getIndex_loop_spec x (r_base r) _ _ Hr 0 1) as [H1 H2].
  assert (Exists (fun a => exists v, im_get x a = Ok v /\ r_base r <= v) (r_addresses r) <-> Exists (fun d => r_base r <= d) ds) as Hiff.
  { clear -Hr. unfold reads in Hr. induction Hr as [|a d addrs ds Ha Hds IH]; [split; inversion 1|].
    rewrite !Exists_cons, IH. split; intros [Hx|Hx]; auto.
    - destruct Hx as (v & E & Hv). left. rewrite Ha in E. injection E as ->. exact Hv.
    - left. exists d. auto. }
  destruct (decide (Exists (fun d => r_base r <= d) ds)) as [He|Hn].
  - left. split; [apply Hiff, He|]. apply H2, He.
  - right. split; [rewrite Hiff; exact Hn|]. eexists. apply H1; [|unfold W64; lia].
    apply Forall_forall. intros d Hd. destruct (Z_lt_le_dec d (r_base r)); [assumption|]. exfalso. apply Hn, Exists_exists. eauto.
Qed.

Lemma classify_guard d x : s32 (im_size x) = d_entrySize d -> readable d x ->
  (too_big d x -> disc_classify d x = Throw pos_exn) /\ (~ too_big d x -> exists vs, disc_classify d x = Ok vs).
Proof.
  intros Hs Hr. unfold disc_classify, checkEntrySize. rewrite Hs, Z.eqb_refl. cbn [rbind]. unfold readable, too_big in *.
  induction Hr as [|r rs Hr0 Hr IH]; cbn [rmapM]; [split; [inversion 1|eauto]|].
  rewrite Exists_cons. unfold getVote at 1 3. destruct (getIndex_cases r x Hr0) as [[He ->]|[Hn [i ->]]]; cbn [rbind].
  - split; [reflexivity|]. intros H. exfalso. apply H. auto.
  - assert (exists v, (if r_ignoreZero r && (i =? 0) then Ok 0 else match r_positions r !! i with Some v => Ok v | None => Ok 0 end) = Ok v) as [v ->].
    { destruct (_ && _); [eauto|]. destruct (_ !! _); eauto. }
    cbn [rbind]. destruct IH as [IH1 IH2]. split.
    + intros [?|H]; [contradiction|]. rewrite (IH1 H). reflexivity.
    + intros H. destruct IH2 as [vs ->]; [tauto|]. cbn. eauto.
Qed.

(** Room for one more training: no counter is saturated. *)
Definition unsaturated (d : disc) : Prop :=
  INT_MIN <= d_count d < INT_MAX /\ Forall (fun r => forall i v, r_positions r !! i = Some v -> INT_MIN <= v < INT_MAX) (d_rams d).

Lemma reach_unsaturated d0 h d : constructed d0 -> all_valid d0 h -> len h < INT_MAX -> run d0 h = (Ok tt, d) -> unsaturated d.
Proof.
  intros Hc Hv Hl E. pose proof (run_inv d0 h d Hc Hv ltac:(lia) E) as Ha. apply constructed_fresh in Hc as [_ Hs].
  destruct Ha as [_ Hcnt Hr]. pose proof (signed_count_range h). split; [unfold INT_MIN, INT_MAX in *; lia|].
  clear Hcnt E Hv. induction Hr as [|r0 r rs0 rs [Hsame Hst] Hr IH]; [constructor|]. apply Forall_cons in Hs as [[Hs _] Hss].
  constructor; [|apply IH, Hss]. intros i v Hi. pose proof (cell_state_bound _ _ _ _ _ Hs Hst Hi). unfold INT_MIN, INT_MAX in *. lia.
Qed.

Lemma ram_train_cases r x : Forall (fun a => exists v, im_get x a = Ok v) (r_addresses r) ->
  (forall i v, r_positions r !! i = Some v -> INT_MIN <= v < INT_MAX) ->
  (Exists (fun a => exists v, im_get x a = Ok v /\ r_base r <= v) (r_addresses r) /\ ram_train r x = (Throw pos_exn, r)) \/
  (~ Exists (fun a => exists v, im_get x a = Ok v /\ r_base r <= v) (r_addresses r) /\
   exists i, getIndex r x = Ok i /\ ram_train r x = (Ok tt, with_positions r (<[i := default 0 (r_positions r !! i) + 1]> (r_positions r)))).
Proof.
  intros Hr Hsat. unfold ram_train. destruct (getIndex_cases r x Hr) as [[He ->]|[Hn [i Ei]]]; [left; auto|right].
  split; [exact Hn|]. exists i. split; [exact Ei|]. rewrite Ei. destruct (r_positions r !! i) as [v|] eqn:Ev; [|reflexivity].
  specialize (Hsat i v Ev). rewrite int_of_ok by (unfold INT_MIN, INT_MAX in *; lia). reflexivity.
Qed.

(** Exact effect of train on a readable image: the RAMs before the first one that reads a
    too large pixel learn, the others do not. *)
Lemma train_exact d x : s32 (im_size x) = d_entrySize d -> readable d x -> unsaturated d ->
  (~ too_big d x -> exists d', disc_train d x = (Ok tt, d')) /\
  (too_big d x -> exists k rk, d_rams d !! k = Some rk /\
      Exists (fun a => exists v, im_get x a = Ok v /\ r_base rk <= v) (r_addresses rk) /\
      disc_train d x = (Throw pos_exn, Disc (d_entrySize d) (d_count d + 1)
        (((fun r => snd (ram_train r x)) <$> take k (d_rams d)) ++ drop k (d_rams d))) /\
      Forall (fun r => fst (ram_train r x) = Ok tt) (take k (d_rams d))).
Proof.
  intros Hs Hr [Hc Hsat]. unfold disc_train, checkEntrySize. rewrite Hs, Z.eqb_refl.
  rewrite int_of_ok by (unfold INT_MIN, INT_MAX in *; lia). unfold readable, too_big in *.
  assert (~ Exists (fun r => Exists (fun a => exists v, im_get x a = Ok v /\ r_base r <= v) (r_addresses r)) (d_rams d) /\
          (exists rs', rams_update (fun r => ram_train r x) (d_rams d) = (Ok tt, rs')) \/
          (exists k rk, d_rams d !! k = Some rk /\
            Exists (fun a => exists v, im_get x a = Ok v /\ r_base rk <= v) (r_addresses rk) /\
            rams_update (fun r => ram_train r x) (d_rams d) =
              (Throw pos_exn, ((fun r => snd (ram_train r x)) <$> take k (d_rams d)) ++ drop k (d_rams d)) /\
            Forall (fun r => fst (ram_train r x) = Ok tt) (take k (d_rams d)))) as Hcases.
  { induction Hr as [|r rs Hr0 Hr IH]; [left; split; [inversion 1|eexists; reflexivity]|].
    apply Forall_cons in Hsat as [Hsat0 Hsat]. cbn [rams_update].
    destruct (ram_train_cases r x Hr0 Hsat0) as [[He E]|[Hn (i & _ & E)]].
    - right. exists 0%nat, r. split; [reflexivity|]. split; [exact He|]. rewrite E. split; [reflexivity|constructor].
    - rewrite E. destruct (IH Hsat) as [[Hno [rs' E']]|(k & rk & Hk & He & E' & Hf)].
      + left. rewrite E'. split; [|eauto]. rewrite Exists_cons. tauto.
      + right. exists (S k), rk. rewrite E'. split; [exact Hk|]. split; [exact He|]. cbn [take drop]. rewrite fmap_cons, E. split; [reflexivity|].
        constructor; [rewrite E; reflexivity|exact Hf]. }
  destruct Hcases as [[Hn [rs' E]]|(k & rk & Hk & He & E & Hf)].
  - split; [intros _; rewrite E; eauto|contradiction].
  - split.
    + intros H. exfalso. apply H, Exists_exists. exists rk. split; [eapply elem_of_list_lookup_2, Hk|exact He].
    + intros _. exists k, rk. rewrite E. auto.
Qed.

(** C38: images read through the same positions are interchangeable. *)
Definition same_view (d : disc) (x y : image) : Prop :=
  im_size x = im_size y /\ Forall (fun r => agree (r_addresses r) x y) (d_rams d).
Lemma getIndex_view r x y : agree (r_addresses r) x y -> getIndex r x = getIndex r y.
Proof.
  unfold getIndex, agree. intros H0. revert H0.
  assert (forall p i, Forall (fun a => im_get x a = im_get y a) (r_addresses r) ->
    getIndex_loop (r_addresses r) (r_base r) x i p = getIndex_loop (r_addresses r) (r_base r) y i p) as HH; [|apply HH].
  induction (r_addresses r) as [|a l IH]; intros p i H; [reflexivity|].
  apply Forall_cons in H as [Ha H]. cbn [getIndex_loop]. rewrite Ha. destruct (im_get y a); cbn [rbind]; [|reflexivity..].
  destruct (checkPos _ _); cbn [rbind]; [apply IH, H|reflexivity..].
Qed.
Lemma rams_update_ext f g rs : Forall (fun r => f r = g r) rs -> rams_update f rs = rams_update g rs.
Proof. induction 1 as [|r rs E H IH]; [reflexivity|]. cbn [rams_update]. rewrite E, IH. reflexivity. Qed.
Lemma rmapM_ext' {A B} (f g : A -> res B) l : Forall (fun x => f x = g x) l -> rmapM f l = rmapM g l.
Proof. induction 1 as [|x l E H IH]; [reflexivity|]. cbn [rmapM]. rewrite E, IH. reflexivity. Qed.
Lemma view_same d x y : same_view d x y ->
  disc_train d x = disc_train d y /\ disc_untrain d x = disc_untrain d y /\ disc_classify d x = disc_classify d y.
Proof.
  intros [Hs Hr]. unfold disc_train, disc_untrain, disc_classify. rewrite Hs. split; [|split].
  - erewrite rams_update_ext; [reflexivity|]. eapply Forall_impl; [exact Hr|]. intros r H. cbn. unfold ram_train. rewrite (getIndex_view r x y H). reflexivity.
  - erewrite rams_update_ext; [reflexivity|]. eapply Forall_impl; [exact Hr|]. intros r H. cbn. unfold ram_untrain. rewrite (getIndex_view r x y H). reflexivity.
  - destruct (checkEntrySize _ _); cbn [rbind]; [|reflexivity..]. apply rmapM_ext'. eapply Forall_impl; [exact Hr|]. intros r H. cbn. unfold getVote. rewrite (getIndex_view r x y H). reflexivity.
Qed.

Lemma bin_view l b a : len l <= bin_limit -> Forall is_bit l -> bin_of_list l = Ok b -> 0 <= a < len l ->
  im_get (bin_image b) a = im_get (vec_image l) a.
Proof.
  intros Hl Hb E Ha. destruct (bin_of_list_spec l Hl Hb) as (b' & E' & Hsz & Hg). rewrite E in E'. injection E' as <-.
  cbn. rewrite u64_id by (unfold bin_limit, W64 in *; lia). unfold vget. destruct (Z.leb_spec 0 a); [|lia].
  destruct (lookup_lt_is_Some_2 l (Z.to_nat a)) as [v Ev]; [unfold len in Ha; lia|]. rewrite Ev.
  rewrite <- (Z2Nat.id a) by lia. apply Hg, Ev.
Qed.

Lemma interchangeable d l b : wired_inside d -> len l <= INT_MAX -> Forall is_bit l -> bin_of_list l = Ok b ->
  disc_train d (bin_image b) = disc_train d (vec_image l) /\ disc_classify d (bin_image b) = disc_classify d (vec_image l).
Proof.
  intros Hw Hl Hb E. assert (len l <= bin_limit) as Hl' by (unfold bin_limit, INT_MAX in *; lia).
  destruct (bin_of_list_spec l Hl' Hb) as (b' & E' & _ & Hsz & _). rewrite E in E'. injection E' as <-.
  destruct (Z.eq_dec (len l) (d_entrySize d)) as [He|Hne].
  - destruct (view_same d (bin_image b) (vec_image l)) as (H1 & _ & H2); [|auto]. split; [exact Hsz|].
    eapply Forall_impl; [exact Hw|]. intros r Hr. eapply Forall_impl; [exact Hr|]. intros a Ha. apply bin_view; auto. rewrite He. exact Ha.
  - assert (s32 (len l) <> d_entrySize d) as Hne'. { pose proof (len_nonneg l). rewrite s32_id by (unfold INT_MIN in *; lia). exact Hne. }
    destruct (size_guard d (bin_image b)) as (-> & _ & ->); [cbn [im_size bin_image]; rewrite Hsz; exact Hne'|].
    destruct (size_guard d (vec_image l) Hne') as (-> & _ & ->). auto.
Qed.

(** C35 *)
Lemma counter d0 h d : constructed d0 -> all_valid d0 h -> len h <= INT_MAX -> run d0 h = (Ok tt, d) ->
  getNumberOfTrainings d = count_if (fun o => match o with Train _ => true | _ => false end) h -
                           count_if (fun o => match o with Untrain _ => true | _ => false end) h.
Proof. intros Hc Hv Hl E. apply (af_count _ _ _ (run_inv d0 h d Hc Hv Hl E)). Qed.

(** C36 *)
Lemma mental_history iter d0 h : good_iter iter -> constructed d0 -> 0 <= d_entrySize d0 -> wired_inside d0 ->
  Forall small (d_rams d0) -> all_valid d0 h -> len h <= INT_MAX -> len h * total_inputs d0 <= INT_MAX ->
  exists d l, run d0 h = (Ok tt, d) /\ disc_mental iter d = Ok l /\ len l = d_entrySize d0 /\
    forall p, 0 <= p < d_entrySize d0 -> l !! Z.to_nat p = Some (mental_law d0 h p).
Proof.
  intros Hi Hc He Hw Hsm Hv Hl Hb. apply constructed_fresh in Hc. destruct (run_after d0 h Hc Hv Hl) as (d & E & Ha).
  destruct (mental_after iter d0 h d Hi Hc He Hw Hv Hl Hb Ha) as (l & El & Hll & _ & Hg).
  exists d, l. split; [exact E|]. split; [exact El|]. split; [exact Hll|]. intros p Hp. rewrite <- mental_due_law. apply Hg; assumption.
Qed.
Lemma mental_training iter d0 xs : good_iter iter -> constructed d0 -> 0 <= d_entrySize d0 -> wired_inside d0 ->
  Forall small (d_rams d0) -> Forall (valid_image d0) xs -> len xs <= INT_MAX -> len xs * total_inputs d0 <= INT_MAX ->
  exists d l, disc_train_all d0 xs = (Ok tt, d) /\ disc_mental iter d = Ok l /\ len l = d_entrySize d0 /\
    forall p, 0 <= p < d_entrySize d0 -> l !! Z.to_nat p = Some (wires d0 p * active p xs).
Proof.
  intros Hi Hc He Hw Hsm Hv Hl Hb.
  destruct (mental_history iter d0 (Train <$> xs) Hi Hc He Hw Hsm (valid_train _ _ Hv)) as (d & l & E & El & Hll & Hg); [rewrite len_fmap; assumption..|].
  exists d, l. rewrite train_all_run. split; [exact E|]. split; [exact El|]. split; [exact Hll|]. intros p Hp. rewrite Hg, mental_law_train by exact Hp. reflexivity.
Qed.

(** C39 *)
Lemma overflow_at_max d0 xs d x : constructed d0 -> Forall (valid_image d0) xs -> valid_image d0 x -> len xs = INT_MAX ->
  disc_train_all d0 xs = (Ok tt, d) -> fst (disc_train d x) = UB UBOverflow.
Proof.
  intros Hc Hv Hx Hl E. rewrite train_all_run in E.
  pose proof (run_inv d0 _ d Hc (valid_train _ _ Hv) ltac:(rewrite len_fmap; lia) E) as Ha.
  unfold disc_train, checkEntrySize. rewrite (af_entry _ _ _ Ha). destruct Hx as [-> _]. rewrite Z.eqb_refl.
  assert (d_count d = INT_MAX) as ->; [|reflexivity].
  rewrite (af_count _ _ _ Ha). unfold signed_count. rewrite !count_if_fmap. rewrite <- Hl. clear.
  induction xs as [|y xs IH]; [reflexivity|]. rewrite !count_if_cons, len_cons. lia.
Qed.
Lemma overflow_reachable d0 x : constructed d0 -> valid_image d0 x ->
  exists xs d, Forall (valid_image d0) xs /\ disc_train_all d0 xs = (Ok tt, d) /\ fst (disc_train d x) = UB UBOverflow.
Proof.
  intros Hc Hx. assert (0 <= INT_MAX) as Hm by (unfold INT_MAX; lia).
  assert (forall N, N = INT_MAX -> exists xs d, Forall (valid_image d0) xs /\ disc_train_all d0 xs = (Ok tt, d) /\ fst (disc_train d x) = UB UBOverflow) as H;
    [|apply (H _ eq_refl)].
  intros N HN. assert (len (replicate (Z.to_nat N) x) = INT_MAX) as Hl by (unfold len; rewrite replicate_length; lia).
  assert (Forall (valid_image d0) (replicate (Z.to_nat N) x)) as Hv.
  { apply Forall_forall. intros y Hy. apply elem_of_replicate in Hy as [-> _]. exact Hx. }
  destruct (votes_training d0 _ x Hc Hv Hx) as (d & E & _); [lia|].
  exists (replicate (Z.to_nat N) x), d. split; [exact Hv|]. split; [exact E|]. exact (overflow_at_max d0 _ d x Hc Hv Hx Hl E).
Qed.
Lemma no_overflow_below d0 xs : constructed d0 -> Forall (valid_image d0) xs -> len xs <= INT_MAX ->
  exists d, disc_train_all d0 xs = (Ok tt, d).
Proof.
  intros Hc Hv Hl. rewrite train_all_run. apply constructed_fresh in Hc.
  destruct (run_after d0 (Train <$> xs) Hc (valid_train _ _ Hv)) as (d & E & _); [rewrite len_fmap; exact Hl|]. eauto.
Qed.
Lemma pixel_guard d x : s32 (im_size x) = d_entrySize d -> readable d x ->
  (too_big d x -> disc_classify d x = Throw pos_exn) /\
  (~ too_big d x -> exists vs, disc_classify d x = Ok vs) /\
  (unsaturated d -> too_big d x -> exists d', disc_train d x = (Throw pos_exn, d')) /\
  (unsaturated d -> ~ too_big d x -> exists d', disc_train d x = (Ok tt, d')).
Proof.
  intros Hs Hr. destruct (classify_guard d x Hs Hr) as [H1 H2]. split; [exact H1|]. split; [exact H2|]. split; intros Hu Ht.
  - destruct (train_exact d x Hs Hr Hu) as [_ H]. destruct (H Ht) as (k & rk & _ & _ & E & _). eauto.
  - destruct (train_exact d x Hs Hr Hu) as [H _]. apply H, Ht.
Qed.
Lemma reject_effect d x : s32 (im_size x) = d_entrySize d -> readable d x -> unsaturated d -> too_big d x ->
  exists k rk, d_rams d !! k = Some rk /\
    Exists (fun a => exists v, im_get x a = Ok v /\ r_base rk <= v) (r_addresses rk) /\
    disc_train d x = (Throw pos_exn, Disc (d_entrySize d) (d_count d + 1)
      (((fun r => snd (ram_train r x)) <$> take k (d_rams d)) ++ drop k (d_rams d))) /\
    Forall (fun r => fst (ram_train r x) = Ok tt) (take k (d_rams d)).
Proof. intros Hs Hr Hu. apply (train_exact d x Hs Hr Hu). Qed.
Lemma big_pixel d x : s32 (im_size x) = d_entrySize d -> readable d x -> unsaturated d -> too_big d x ->
  exists d', disc_train d x = (Throw pos_exn, d').
Proof. intros Hs Hr Hu Ht. destruct (reject_effect d x Hs Hr Hu Ht) as (k & rk & _ & _ & E & _). eauto. Qed.
