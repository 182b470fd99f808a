(** Progress output: the loops (for C144). *)
From Verif Require Import Prelude Bytes Utils Float32 BinInput Bleaching DataSet Disc Wisard Cluster ClusWisard Wrapper Verbose SpecVerbose.

Fixpoint iloop {S X} (step : S -> nat -> X -> eff S unit) (i : nat) (xs : list X) (s : S) : eff S unit :=
  match xs with [] => (Ok tt, s) | x :: xs' => ebind (step s i x) (fun _ s' => iloop step (Datatypes.S i) xs' s') end.

Lemma loud_quiet {S X} v what n (step : S -> nat -> X -> eff S unit) : forall xs i s, fst (loud v what n step i xs s) = iloop step i xs s.
Proof.
  induction xs as [|x xs IH]; intros i s; [reflexivity|]. cbn [loud iloop]. destruct (step s i x) as [[[]| | |] s']; cbn [ebind]; try reflexivity.
  specialize (IH (Datatypes.S i) s'). destruct (loud v what n step (Datatypes.S i) xs s'). exact IH.
Qed.
Lemma loud_off {S X} what n (step : S -> nat -> X -> eff S unit) : forall xs i s, snd (loud false what n step i xs s) = [].
Proof.
  induction xs as [|x xs IH]; intros i s; [reflexivity|]. cbn [loud say_progress]. destruct (step s i x) as [[[]| | |] s']; try reflexivity.
  specialize (IH (Datatypes.S i) s'). destruct (loud false what n step (Datatypes.S i) xs s'). exact IH.
Qed.
Definition reports_from (what : str) (n : Z) (i k : nat) : str := List.concat ((fun i => report what n (Z.of_nat i)) <$> seq (S i) k).
Lemma say_report what i n : say_progress true what i n = report what n (Z.of_nat (S i)).
Proof. unfold say_progress, report. rewrite Nat2Z.inj_succ. unfold Z.succ. reflexivity. Qed.
Lemma loud_on {S X} what n (step : S -> nat -> X -> eff S unit) : forall xs i s,
  match fst (iloop step i xs s) with
  | Ok _ => snd (loud true what n step i xs s) = reports_from what n i (length xs)
  | o => exists k, (k < length xs)%nat /\ snd (loud true what n step i xs s) = reports_from what n i (Datatypes.S k) /\
           fst (iloop step i (take k xs) s) = Ok tt /\ fst (iloop step i (take (Datatypes.S k) xs) s) = o
  end.
Proof.
  induction xs as [|x xs IH]; intros i s; [reflexivity|]. cbn [loud iloop length].
  assert (HB : forall o : res unit, fst (step s i x) = o -> o <> Ok tt -> snd (let t := say_progress true what i n in
      match step s i x with (Ok _, s') => let '(r, t') := loud true what n step (Datatypes.S i) xs s' in (r, t ++ t') | r => (r, t) end) = reports_from what n i 1
      /\ fst (iloop step i (take 1 (x :: xs)) s) = o).
  { intros o E Ho. unfold reports_from. cbn [seq fmap list_fmap List.concat]. rewrite say_report, app_nil_r. cbn [take iloop]. rewrite firstn_O. destruct (step s i x) as [[[]| | |] s']; cbn [fst snd ebind] in *; try congruence; auto. }
  destruct (step s i x) as [[[]| | |] s'] eqn:Ex; cbn [ebind fst].
  2-4: exists 0%nat; destruct (HB _ eq_refl ltac:(discriminate)) as [H1 H2]; (split; [lia|]); (split; [exact H1|]); split; [reflexivity|exact H2].
  specialize (IH (Datatypes.S i) s'). destruct (loud true what n step (Datatypes.S i) xs s') as [r t]. cbn [snd] in *.
  assert (HC : forall k, say_progress true what i n ++ reports_from what n (Datatypes.S i) k = reports_from what n i (Datatypes.S k)).
  { intros k. unfold reports_from. cbn [seq fmap list_fmap List.concat]. rewrite say_report. reflexivity. }
  destruct (fst (iloop step (Datatypes.S i) xs s')) as [u| | |] eqn:Eo.
  - rewrite IH. apply HC.
  - destruct IH as (k & Hk & Ht & H1 & H2). exists (Datatypes.S k). split; [lia|]. split; [rewrite Ht; apply HC|]. cbn [take iloop]. rewrite !Ex. cbn [ebind]. split; assumption.
  - destruct IH as (k & Hk & Ht & H1 & H2). exists (Datatypes.S k). split; [lia|]. split; [rewrite Ht; apply HC|]. cbn [take iloop]. rewrite !Ex. cbn [ebind]. split; assumption.
  - destruct IH as (k & Hk & Ht & H1 & H2). exists (Datatypes.S k). split; [lia|]. split; [rewrite Ht; apply HC|]. cbn [take iloop]. rewrite !Ex. cbn [ebind]. split; assumption.
Qed.

(** The whole of a call with one loop. *)
Lemma then_end_quiet {S} v (p : eff S unit * str) : fst (then_end v p) = fst p.
Proof. destruct p as [[[[]| | |] s] t]; reflexivity. Qed.
Definition upto_loop {S X} (step : S -> nat -> X -> eff S unit) (xs : list X) (s : S) (k : nat) : res unit := fst (iloop step 0 (take k xs) s).
Lemma loud_told {S X} v what (step : S -> nat -> X -> eff S unit) xs s (upto : nat -> res unit) :
  (forall k, (0 < k <= length xs)%nat -> upto k = upto_loop step xs s k) ->
  told v what (length xs) [] upto (fst (iloop step 0 xs s)) (snd (loud v what (len xs) step 0 xs s)) /\
  told v what (length xs) line_end upto (fst (iloop step 0 xs s)) (snd (then_end v (loud v what (len xs) step 0 xs s))).
Proof.
  intros Hu. unfold told. destruct v.
  - pose proof (loud_on what (len xs) step xs 0 s) as H. pose proof (loud_quiet true what (len xs) step xs 0 s) as E. destruct (loud true what (len xs) step 0 xs s) as [[o s'] t]. cbn [fst snd] in *.
    rewrite <- E in H |- *. cbn [fst] in *. change (reports what (Z.of_nat (length xs))) with (reports_from what (len xs) 0).
    assert (HK : forall k, (k < length xs)%nat -> upto_loop step xs s k = Ok tt -> k = 0%nat \/ exists a, upto k = Ok a).
    { intros k Hk Ek. destruct k as [|k]; [left; reflexivity|right]. exists tt. rewrite Hu by lia. exact Ek. }
    destruct o as [[]| | |]; cbn [then_end snd].
    + rewrite app_nil_r, H. split; reflexivity.
    + destruct H as (k & Hk & Ht & H1 & H2). split; right; exists k; rewrite (Hu (Datatypes.S k)) by lia; auto.
    + destruct H as (k & Hk & Ht & H1 & H2). split; right; exists k; rewrite (Hu (Datatypes.S k)) by lia; auto.
    + destruct H as (k & Hk & Ht & H1 & H2). split; right; exists k; rewrite (Hu (Datatypes.S k)) by lia; auto.
  - pose proof (loud_off what (len xs) step xs 0 s) as H. destruct (loud false what (len xs) step 0 xs s) as [[[[]| | |] s'] t]; cbn [snd then_end say_end] in *; subst t; split; reflexivity.
Qed.

(** ** The loops of the quiet model are these loops *)
Lemma train_loop_i lhs env : forall images labels i w (all : list str), drop i all = labels ->
  iloop (fun w i im => match all !! i with Some l => wisard_train1 lhs env w im l | None => (UB UBIndex, w) end) i images w = wisard_train_loop lhs env w images labels.
Proof.
  induction images as [|im images IH]; intros labels i w all E; [reflexivity|]. cbn [iloop wisard_train_loop]. destruct labels as [|l labels].
  - assert (all !! i = None) as -> by (apply lookup_ge_None; apply (f_equal length) in E; rewrite drop_length in E; cbn in E; lia). reflexivity.
  - assert (all !! i = Some l) as -> by (rewrite <- (Nat.add_0_r i), <- lookup_drop, E; reflexivity).
    destruct (wisard_train1 lhs env w im l) as [[[]| | |] w']; cbn [ebind]; try reflexivity. apply IH.
    replace (S i) with (i + 1)%nat by lia. rewrite <- drop_drop, E. reflexivity.
Qed.
Lemma leave_loop_i : forall images labels i w (all : list str), drop i all = labels ->
  iloop (fun w i im => match all !! i with Some l => leaveOneOut w im l | None => (UB UBIndex, w) end) i images w = leaveMoreOut_loop w images labels.
Proof.
  induction images as [|im images IH]; intros labels i w all E; [reflexivity|]. cbn [iloop leaveMoreOut_loop]. destruct labels as [|l labels].
  - assert (all !! i = None) as -> by (apply lookup_ge_None; apply (f_equal length) in E; rewrite drop_length in E; cbn in E; lia). reflexivity.
  - assert (all !! i = Some l) as -> by (rewrite <- (Nat.add_0_r i), <- lookup_drop, E; reflexivity).
    destruct (leaveOneOut w im l) as [[[]| | |] w']; cbn [ebind]; try reflexivity. apply IH.
    replace (S i) with (i + 1)%nat by lia. rewrite <- drop_drop, E. reflexivity.
Qed.
Lemma clus_loop_i lhs env : forall images labels i k (all : list str), drop i all = labels ->
  iloop (fun k i im => match all !! i with Some l => clus_train1 lhs (env i) k im l | None => (UB UBIndex, k) end) i images k = clus_train_loop lhs env i k images labels.
Proof.
  induction images as [|im images IH]; intros labels i w all E; [reflexivity|]. cbn [iloop clus_train_loop]. destruct labels as [|l labels].
  - assert (all !! i = None) as -> by (apply lookup_ge_None; apply (f_equal length) in E; rewrite drop_length in E; cbn in E; lia). reflexivity.
  - assert (all !! i = Some l) as -> by (rewrite <- (Nat.add_0_r i), <- lookup_drop, E; reflexivity).
    destruct (clus_train1 lhs (env i) w im l) as [[[]| | |] w']; cbn [ebind]; try reflexivity. apply IH.
    replace (S i) with (i + 1)%nat by lia. rewrite <- drop_drop, E. reflexivity.
Qed.
Lemma ds_loop_i lhs env ds : forall data i w,
  iloop (fun w i b => match ds_getLabel ds (Z.of_nat i) with Ok l => wisard_train1 lhs env w (bin_image b) l | _ => (Throw EOutOfRange, w) end) i data w
  = wisard_train_ds_loop lhs env ds data (Z.of_nat i) w.
Proof.
  induction data as [|b data IH]; intros i w; [reflexivity|]. cbn [iloop wisard_train_ds_loop]. destruct (ds_getLabel ds (Z.of_nat i)); try reflexivity.
  destruct (wisard_train1 lhs env w (bin_image b) a) as [[[]| | |] w']; cbn [ebind]; try reflexivity. rewrite IH. f_equal. lia.
Qed.

(** ** One lemma per call *)
Lemma checked_quiet {S} (s : S) c p : fst (checked s c p) = ebind (elift s c) (fun _ s => match c with Ok _ => fst p | _ => (Ok tt, s) end).
Proof. destruct c as [[]| | |]; reflexivity. Qed.
Lemma told_refused {A} v what n ending (upto : nat -> res A) (o : res A) : (forall a, o <> Ok a) -> told v what n ending upto o [].
Proof. intros H. unfold told. destruct v; [|reflexivity]. destruct o as [a| | |]; [destruct (H a eq_refl)|left; reflexivity..]. Qed.
Lemma told_ext {A} v what n ending (upto upto' : nat -> res A) o t : (forall k, (0 < k <= n)%nat -> upto k = upto' k) ->
  told v what n ending upto o t -> told v what n ending upto' o t.
Proof.
  intros H. unfold told. destruct v; [|auto]. assert (G : (exists k, (k < n)%nat /\ t = reports what (Z.of_nat n) (S k) /\ (k = 0%nat \/ exists a, upto k = Ok a) /\ upto (S k) = o) ->
    exists k, (k < n)%nat /\ t = reports what (Z.of_nat n) (S k) /\ (k = 0%nat \/ exists a, upto' k = Ok a) /\ upto' (S k) = o).
  { intros (k & Hk & Ht & H1 & H2). exists k. rewrite <- (H (S k)) by lia. split; [exact Hk|]. split; [exact Ht|]. split; [|exact H2]. destruct k as [|k]; [left; reflexivity|]. rewrite <- (H (S k)) by lia. destruct H1 as [H1|H1]; [lia|right; exact H1]. }
  destruct o; [auto|tauto..].
Qed.
Lemma s32_len (n : Z) : 0 <= n <= INT_MAX -> s32 n = n.
Proof. intros H. unfold s32, INT_MAX, W32 in *. destruct (Z.ltb_spec (n mod 4294967296) 2147483648) as [L|L]; rewrite Z.mod_small in * by lia; lia. Qed.
Lemma sizes_prefix {A B} (xs : list A) (ys : list B) k : len xs = len ys -> len xs <= INT_MAX -> checkInputSizes (len (take k xs)) (len (take k ys)) = Ok tt.
Proof.
  intros H Hm. unfold checkInputSizes, len in *. rewrite !take_length. rewrite !s32_len by lia. rewrite (proj2 (Z.eqb_eq _ _)) by lia. reflexivity.
Qed.
Lemma nrams_cases e a c : (exists n, calculateNumberOfRams e a c = Ok n) \/ calculateNumberOfRams e a c = UB UBDivZero.
Proof. unfold calculateNumberOfRams. destruct (a =? 0); [right; reflexivity|left]. destruct (c && _); eauto. Qed.
Lemma train_loop_take lhs env : forall images labels w, wisard_train_loop lhs env w images (take (length images) labels) = wisard_train_loop lhs env w images labels.
Proof.
  induction images as [|im images IH]; intros labels w; [reflexivity|]. destruct labels as [|l labels]; [reflexivity|]. cbn [length take wisard_train_loop]. destruct (wisard_train1 lhs env w im l) as [[[]| | |] w']; cbn [ebind]; try reflexivity. apply IH.
Qed.
Lemma leave_loop_take : forall images labels w, leaveMoreOut_loop w images (take (length images) labels) = leaveMoreOut_loop w images labels.
Proof.
  induction images as [|im images IH]; intros labels w; [reflexivity|]. destruct labels as [|l labels]; [reflexivity|]. cbn [length take leaveMoreOut_loop]. destruct (leaveOneOut w im l) as [[[]| | |] w']; cbn [ebind]; try reflexivity. apply IH.
Qed.
Lemma clus_loop_take lhs env : forall images labels i k, clus_train_loop lhs env i k images (take (length images) labels) = clus_train_loop lhs env i k images labels.
Proof.
  induction images as [|im images IH]; intros labels i w; [reflexivity|]. destruct labels as [|l labels]; [reflexivity|]. cbn [length take clus_train_loop]. destruct (clus_train1 lhs (env i) w im l) as [[[]| | |] w']; cbn [ebind]; try reflexivity. apply IH.
Qed.
Lemma take_len_le {A} k (xs : list A) : (k <= length xs)%nat -> length (take k xs) = k.
Proof. intros H. rewrite take_length. lia. Qed.

(** A call made of checks, a loop, and the end of the line. *)
Lemma call_told {S X} v what (step : S -> nat -> X -> eff S unit) xs s (c : res unit) (quiet : eff S unit) (upto : nat -> res unit) :
  quiet = ebind (elift s c) (fun _ s => iloop step 0 xs s) ->
  (c = Ok tt -> forall k, (0 < k <= length xs)%nat -> upto k = upto_loop step xs s k) ->
  (exists t, checked s c (loud v what (len xs) step 0 xs s) = (quiet, t) /\ told v what (length xs) [] upto (fst quiet) t) /\
  (exists t, checked s c (then_end v (loud v what (len xs) step 0 xs s)) = (quiet, t) /\ told v what (length xs) line_end upto (fst quiet) t).
Proof.
  intros -> Hu. destruct c as [[]| | |]; cbn [checked elift ebind fst]; [|split; (exists []; split; [reflexivity|apply told_refused; discriminate])..].
  destruct (loud_told v what step xs s upto (Hu eq_refl)) as [H1 H2]. split; (eexists; split; [|eassumption]).
  - rewrite <- (loud_quiet v what (len xs) step). apply surjective_pairing.
  - rewrite <- (loud_quiet v what (len xs) step), <- (then_end_quiet v). apply surjective_pairing.
Qed.

Lemma train_told lhs env w images labels : len images <= INT_MAX -> len labels <= INT_MAX -> exists t,
  wisard_train_say lhs env w images labels = (wisard_train lhs env w images labels, t) /\
  told (w_verbose w) (lit "training") (length images) line_end (fun k => fst (wisard_train lhs env w (take k images) (take k labels)))
    (fst (wisard_train lhs env w images labels)) t.
Proof.
  intros Hi Hl. destruct images as [|im0 images]; [exists []; split; [reflexivity|]; apply told_refused; discriminate|].
  set (xs := im0 :: images) in *. change (wisard_train_say lhs env w xs labels) with (wisard_train_say lhs env w (im0 :: images) labels). unfold wisard_train_say. fold xs.
  assert (Q : forall ys ls, wisard_train lhs env w (im0 :: ys) ls = ebind (elift w (let* n := calculateNumberOfRams (s32 (im_size im0)) (w_addressSize w) (w_completeAddressing w) in
                 let* _ := checkConfidence (w_confidence w) n in checkInputSizes (len (im0 :: ys)) (len ls))) (fun _ w => wisard_train_loop lhs env w (im0 :: ys) ls)).
  { intros ys ls. unfold wisard_train. destruct (nrams_cases (s32 (im_size im0)) (w_addressSize w) (w_completeAddressing w)) as [[n ->] | ->]; [|reflexivity]. cbn [rbind].
    unfold checkConfidence. destruct (n <? w_confidence w); [reflexivity|]. cbn [rbind]. unfold checkInputSizes. destruct (_ =? _); reflexivity. }
  set (step := fun (w : wisard) (i : nat) (im : image) => match labels !! i with Some l => wisard_train1 lhs env w im l | None => (UB UBIndex, w) end).
  apply call_told.
  - change (wisard_train lhs env w xs labels) with (wisard_train lhs env w (im0 :: images) labels). rewrite (Q images labels). fold xs. match goal with |- ebind (elift _ ?c) _ = _ => destruct c as [[]| | |] end; try reflexivity; cbn [elift ebind]; symmetry. apply (train_loop_i lhs env xs labels 0 w labels eq_refl).
  - intros Hc k Hk. destruct k as [|k]; [lia|]. change (take (Datatypes.S k) xs) with (im0 :: take k images). rewrite (Q (take k images)). change (im0 :: take k images) with (take (Datatypes.S k) xs).
    destruct (calculateNumberOfRams _ _ _) as [n| | |]; cbn [rbind] in Hc |- *; try discriminate. destruct (checkConfidence _ _) as [[]| | |]; cbn [rbind] in Hc |- *; try discriminate.
    assert (Es : len xs = len labels).
    { unfold checkInputSizes in Hc. rewrite !s32_len in Hc by (unfold len in *; lia). destruct (Z.eqb_spec (len xs) (len labels)); [assumption|discriminate]. }
    rewrite sizes_prefix by assumption. cbn [elift ebind]. unfold upto_loop. rewrite (train_loop_i lhs env _ labels 0 w labels eq_refl).
    rewrite <- (train_loop_take lhs env (take (Datatypes.S k) xs) labels), take_len_le by exact (proj2 Hk). reflexivity.
Qed.
Lemma train_ds_told lhs env w ds : exists t,
  wisard_train_ds_say lhs env w ds = (wisard_train_ds lhs env w ds, t) /\
  told (w_verbose w) (lit "training") (length (ds_data ds)) [] (fun k => fst (wisard_train_ds lhs env w (DataSet (take k (ds_data ds)) (ds_labels ds))))
    (fst (wisard_train_ds lhs env w ds)) t.
Proof.
  unfold wisard_train_ds_say. destruct ds as [data m]. cbn [ds_data ds_labels]. destruct data as [|b0 data]; [exists []; split; [reflexivity|]; apply told_refused; discriminate|].
  set (xs := b0 :: data) in *.
  assert (Q : forall ys, wisard_train_ds lhs env w (DataSet (b0 :: ys) m) = ebind (elift w (let* n := calculateNumberOfRams (s32 (bin_size b0)) (w_addressSize w) (w_completeAddressing w) in
                 checkConfidence (w_confidence w) n)) (fun _ w => wisard_train_ds_loop lhs env (DataSet xs m) (b0 :: ys) 0 w)).
  { intros ys. unfold wisard_train_ds. cbn [ds_data]. destruct (nrams_cases (s32 (bin_size b0)) (w_addressSize w) (w_completeAddressing w)) as [[n ->] | ->]; [|reflexivity]. cbn [rbind].
    unfold checkConfidence. destruct (n <? w_confidence w); [reflexivity|]. cbn [elift ebind].
    assert (G : forall l i w, wisard_train_ds_loop lhs env (DataSet (b0 :: ys) m) l i w = wisard_train_ds_loop lhs env (DataSet xs m) l i w); [|apply G].
    induction l as [|b l IH]; intros i w'; [reflexivity|]. cbn [wisard_train_ds_loop]. change (ds_getLabel (DataSet (b0 :: ys) m) i) with (ds_getLabel (DataSet xs m) i).
    destruct (ds_getLabel (DataSet xs m) i); try reflexivity. destruct (wisard_train1 lhs env w' (bin_image b) a) as [[[]| | |] w2]; cbn [ebind]; try reflexivity. apply IH. }
  set (c := let* n := calculateNumberOfRams (s32 (bin_size b0)) (w_addressSize w) (w_completeAddressing w) in checkConfidence (w_confidence w) n) in *.
  set (step := fun (w : wisard) (i : nat) (b : bininput) => match ds_getLabel (DataSet xs m) (Z.of_nat i) with
                         | Ok l => wisard_train1 lhs env w (bin_image b) l | _ => (Throw EOutOfRange, w) end).
  assert (Q' : wisard_train_ds lhs env w (DataSet xs m) = ebind (elift w c) (fun _ w => iloop step 0 xs w)).
  { change (wisard_train_ds lhs env w (DataSet xs m)) with (wisard_train_ds lhs env w (DataSet (b0 :: data) m)). rewrite (Q data). fold xs. destruct c as [[]| | |]; try reflexivity. cbn [elift ebind]. symmetry. apply (ds_loop_i lhs env (DataSet xs m) xs 0 w). }
  destruct (call_told (w_verbose w) (lit "training") step xs w c _ (fun k => fst (wisard_train_ds lhs env w (DataSet (take k xs) m))) Q') as [H _]; [|exact H].
  intros Hc k Hk. destruct k as [|k]; [lia|]. change (take (Datatypes.S k) xs) with (b0 :: take k data). rewrite (Q (take k data)), Hc. cbn [elift ebind]. unfold upto_loop.
  unfold step. rewrite (ds_loop_i lhs env (DataSet xs m) (take (Datatypes.S k) xs) 0 w). reflexivity.
Qed.
Lemma leave_told w images labels : len images <= INT_MAX -> len labels <= INT_MAX -> exists t,
  leaveMoreOut_say w images labels = (leaveMoreOut w images labels, t) /\
  told (w_verbose w) (lit "untraining") (length images) line_end (fun k => fst (leaveMoreOut w (take k images) (take k labels)))
    (fst (leaveMoreOut w images labels)) t.
Proof.
  intros Hi Hl. unfold leaveMoreOut_say.
  assert (Q : forall ys ls, leaveMoreOut w ys ls = ebind (elift w (checkInputSizes (len ys) (len ls))) (fun _ w => leaveMoreOut_loop w ys ls)).
  { intros ys ls. unfold leaveMoreOut, checkInputSizes. destruct (_ =? _); reflexivity. }
  apply call_told.
  - rewrite (Q images labels). match goal with |- ebind (elift _ ?c) _ = _ => destruct c as [[]| | |] end; try reflexivity; cbn [elift ebind]; symmetry. apply (leave_loop_i images labels 0 w labels eq_refl).
  - intros Hc k Hk. rewrite Q. assert (Es : len images = len labels).
    { unfold checkInputSizes in Hc. rewrite !s32_len in Hc by (unfold len in *; lia). destruct (Z.eqb_spec (len images) (len labels)); [assumption|discriminate]. }
    rewrite sizes_prefix by assumption. cbn [elift ebind]. unfold upto_loop. rewrite (leave_loop_i _ labels 0 w labels eq_refl).
    rewrite <- (leave_loop_take (take k images) labels), take_len_le by exact (proj2 Hk). reflexivity.
Qed.
Lemma clus_told lhs env k0 images labels : len images <= INT_MAX -> len labels <= INT_MAX -> exists t,
  clus_train_say lhs env k0 images labels = (clus_train lhs env k0 images labels, t) /\
  told (k_verbose k0) (lit "training") (length images) line_end (fun k => fst (clus_train lhs env k0 (take k images) (take k labels)))
    (fst (clus_train lhs env k0 images labels)) t.
Proof.
  intros Hi Hl. destruct images as [|im0 images]; [exists []; split; [reflexivity|]; apply told_refused; discriminate|].
  set (xs := im0 :: images) in *. change (clus_train_say lhs env k0 xs labels) with (clus_train_say lhs env k0 (im0 :: images) labels). unfold clus_train_say. fold xs.
  apply call_told.
  - unfold clus_train, xs. fold xs. destruct (let* _ := clus_first_checks k0 im0 in _) as [[]| | |]; try reflexivity.
    cbn [elift ebind]. symmetry. apply (clus_loop_i lhs env xs labels 0 k0 labels eq_refl).
  - intros Hc k Hk. destruct k as [|k]; [lia|]. change (take (Datatypes.S k) xs) with (im0 :: take k images). unfold clus_train. change (im0 :: take k images) with (take (Datatypes.S k) xs).
    destruct (clus_first_checks k0 im0) as [[]| | |]; cbn [rbind] in Hc |- *; try discriminate.
    assert (Es : len xs = len labels).
    { unfold checkInputSizes in Hc. rewrite !s32_len in Hc by (unfold len in *; lia). destruct (Z.eqb_spec (len xs) (len labels)); [assumption|discriminate]. }
    rewrite sizes_prefix by assumption. cbn [elift ebind]. unfold upto_loop. rewrite (clus_loop_i lhs env _ labels 0 k0 labels eq_refl).
    rewrite <- (clus_loop_take lhs env (take (Datatypes.S k) xs) labels), take_len_le by exact (proj2 Hk). reflexivity.
Qed.

(** ** Calls that return answers *)
Definition collapse {A} (o : res A) : res unit := let* _ := o in Ok tt.
Lemma told_collapse {A} v what n ending (upto : nat -> res A) (o : res A) t :
  told v what n ending (fun k => collapse (upto k)) (collapse o) t -> told v what n ending upto o t.
Proof.
  unfold told. destruct v; [|auto]. assert (G : (forall a, o <> Ok a) -> (exists k, (k < n)%nat /\ t = reports what (Z.of_nat n) (S k) /\ (k = 0%nat \/ exists a, collapse (upto k) = Ok a) /\ collapse (upto (S k)) = collapse o) ->
    exists k, (k < n)%nat /\ t = reports what (Z.of_nat n) (S k) /\ (k = 0%nat \/ exists a, upto k = Ok a) /\ upto (S k) = o).
  { intros Hn (k & Hk & Ht & H1 & H2). exists k. split; [exact Hk|]. split; [exact Ht|]. split.
    - destruct H1 as [H1|[a H1]]; [left; exact H1|right]. destruct (upto k); cbn in H1; try discriminate. eauto.
    - destruct (upto (S k)), o; cbn in H2; congruence || (injection H2 as ->; reflexivity) || (exfalso; eapply Hn; reflexivity). }
  destruct o; cbn [collapse rbind]; [auto|..]; (intros [H|H]; [left; exact H|right; apply G; [discriminate|exact H]]).
Qed.
Definition collect {A} (f : image -> res A) (labels : list A) (_ : nat) (im : image) : eff (list A) unit :=
  match f im with Ok a => (Ok tt, labels ++ [a]) | Throw e => (Throw e, labels) | UB u => (UB u, labels) | Hang => (Hang, labels) end.
Lemma collect_loop {A} (f : image -> res A) : forall xs i acc,
  fst (iloop (collect f) i xs acc) = collapse (rmapM f xs) /\ forall ls, rmapM f xs = Ok ls -> snd (iloop (collect f) i xs acc) = acc ++ ls.
Proof.
  induction xs as [|x xs IH]; intros i acc; cbn [iloop rmapM]; [split; [reflexivity|intros ls [= <-]; rewrite app_nil_r; reflexivity]|].
  unfold collect at 1 3. destruct (f x) as [a| | |]; cbn [rbind ebind collapse]; [|split; [reflexivity|discriminate]..].
  destruct (IH (S i) (acc ++ [a])) as [H1 H2]. split; [rewrite H1; destruct (rmapM f xs); reflexivity|]. intros ls E. destruct (rmapM f xs) as [l| | |]; cbn in E; try discriminate. injection E as <-. rewrite (H2 l eq_refl), <- app_assoc. reflexivity.
Qed.
Lemma classify_told {A} v what (f : image -> res A) images : exists t, classify_say v what f images = (rmapM f images, t) /\
  told v what (length images) line_end (fun k => rmapM f (take k images)) (rmapM f images) t.
Proof.
  unfold classify_say. fold (collect f). destruct (loud_told v what (collect f) images [] (fun k => collapse (rmapM f (take k images)))) as [_ H].
  { intros k _. symmetry. apply collect_loop. }
  destruct (collect_loop f images 0 []) as [H1 H2]. rewrite H1 in H. pose proof (loud_quiet v what (len images) (collect f) images 0 []) as E.
  rewrite <- (then_end_quiet v) in E. destruct (then_end v (loud v what (len images) (collect f) 0 images [])) as [[o ls] t]. cbn [fst snd] in *. exists t.
  rewrite <- E in *. cbn [fst snd] in *. split; [|apply told_collapse, H]. subst o. f_equal. destruct (rmapM f images) as [l| | |]; cbn; try reflexivity. rewrite (H2 l eq_refl). reflexivity.
Qed.
Lemma py_told (w : wisard) images : exists t, py_classify_say w images = (py_classify w images, t) /\
  told (w_verbose w) (lit "classifying") (length images) line_end (fun k => py_classify w (take k images)) (py_classify w images) t.
Proof.
  unfold py_classify_say. destruct images as [|im0 images]; [exists []; split; [reflexivity|apply told_refused; discriminate]|].
  unfold py_classify at 1 3. destruct (calculateNumberOfRams _ _ _) as [n| | |] eqn:En; cbn [rbind]; [|exists []; split; [reflexivity|apply told_refused; discriminate]..].
  edestruct (@classify_told pyout) as (t & E & H). exists t. split; [exact E|]. revert H. apply told_ext. intros k Hk. destruct k as [|k]; [lia|]. cbn [take]. unfold py_classify. rewrite En. reflexivity.
Qed.
Lemma py_clus_told (k0 : cluswisard) images : exists t, py_clus_classify_say k0 images = (py_clus_classify k0 images, t) /\
  told (k_verbose k0) (lit "classifying") (length images) line_end (fun k => py_clus_classify k0 (take k images)) (py_clus_classify k0 images) t.
Proof.
  unfold py_clus_classify_say. destruct images as [|im0 images]; [exists []; split; [reflexivity|apply told_refused; discriminate]|].
  unfold py_clus_classify at 1 3. destruct (calculateNumberOfRams _ _ _) as [n| | |] eqn:En; cbn [rbind]; [|exists []; split; [reflexivity|apply told_refused; discriminate]..].
  edestruct (@classify_told pyout) as (t & E & H). exists t. split; [exact E|]. revert H. apply told_ext. intros k Hk. destruct k as [|k]; [lia|]. cbn [take]. unfold py_clus_classify. rewrite En. reflexivity.
Qed.
