(** Lemmas for C159: discriminators with moved wiring fed with moved images, in lock step. *)
From Verif Require Import Prelude Bytes Utils BinInput Ram Disc SpecDisc SpecMove.
From Verif Require Import BytesProofs UtilsProofs DiscCtorProofs ValueSim.

Section sim.
Context (pi : Z -> Z) (n : Z) (Hn : 0 < n <= INT_MAX) (Hpi : moves pi n).
Notation ren := (moved pi n).

Lemma pi_range p : 0 <= p < n -> 0 <= pi p < n.
Proof using Hn Hpi.
  intros Hp. unfold moves in Hpi. assert (H : pi p ∈ pi <$> (Z.of_nat <$> seq 0 (Z.to_nat n))).
  { apply elem_of_list_fmap. exists p. split; [reflexivity|]. apply elem_of_list_fmap. exists (Z.to_nat p). split; [lia|]. apply elem_of_seq. lia. }
  rewrite Hpi in H. apply elem_of_list_fmap in H as (q & -> & Hq). apply elem_of_seq in Hq. lia.
Qed.
Lemma size_rel x x' : ren x x' -> im_size x' = im_size x.
Proof. intros (-> & -> & _). reflexivity. Qed.

Record mram (r r' : ram) : Prop := MRam {
  mr_addr : r_addresses r' = pi <$> r_addresses r; mr_in : Forall (fun p => 0 <= p < n) (r_addresses r);
  mr_pos : r_positions r' = r_positions r; mr_iz : r_ignoreZero r' = r_ignoreZero r; mr_base : r_base r' = r_base r }.
Lemma index_mrel r r' x x' : mram r r' -> ren x x' -> getIndex r' x' = getIndex r x.
Proof.
  intros [Ea Hi _ _ Eb] (_ & _ & Hx). unfold getIndex. rewrite Ea, Eb. clear Ea.
  assert (G : forall i q, getIndex_loop (pi <$> r_addresses r) (r_base r) x' i q = getIndex_loop (r_addresses r) (r_base r) x i q); [|apply G].
  induction Hi as [|p ps Hp _ IH]; intros i q; [reflexivity|].
  rewrite fmap_cons. cbn [getIndex_loop]. rewrite Hx by exact Hp. destruct (im_get x p); cbn [rbind]; try reflexivity. destruct (checkPos _ _); cbn [rbind]; try reflexivity. apply IH.
Qed.
Lemma positions_mrel r r' m : mram r r' -> mram (with_positions r m) (with_positions r' m).
Proof. intros [Ea Hi Ep Ez Eb]. constructor; try assumption. reflexivity. Qed.
Lemma train_mrel r r' x x' : mram r r' -> ren x x' -> eff_rel mram (ram_train r x) (ram_train r' x').
Proof.
  intros HR Hx. unfold ram_train. rewrite (index_mrel r r' x x' HR Hx), (mr_pos _ _ HR). destruct (getIndex r x) as [i| | |]; [|split; [reflexivity|exact HR]..].
  destruct (r_positions r !! i) as [v|]; [destruct (int_of (v + 1)); [|split; [reflexivity|exact HR]..]|]; (split; [reflexivity|]); cbn [snd]; apply positions_mrel, HR.
Qed.
Lemma untrain_mrel r r' x x' : mram r r' -> ren x x' -> eff_rel mram (ram_untrain r x) (ram_untrain r' x').
Proof.
  intros HR Hx. unfold ram_untrain. rewrite (index_mrel r r' x x' HR Hx), (mr_pos _ _ HR). destruct (getIndex r x) as [i| | |]; [|split; [reflexivity|exact HR]..].
  destruct (r_positions r !! i) as [v|]; [destruct (int_of (v - 1)); [|split; [reflexivity|exact HR]..]|split; [reflexivity|exact HR]]. split; [reflexivity|]. cbn [snd]. apply positions_mrel, HR.
Qed.
Lemma vote_mrel r r' x x' : mram r r' -> ren x x' -> getVote r' x' = getVote r x.
Proof. intros HR Hx. unfold getVote. rewrite (index_mrel r r' x x' HR Hx), (mr_pos _ _ HR), (mr_iz _ _ HR). reflexivity. Qed.

Record mdisc (d d' : disc) : Prop := MDisc { md_entry : d_entrySize d' = d_entrySize d; md_count : d_count d' = d_count d; md_rams : Forall2 mram (d_rams d) (d_rams d') }.
Lemma update_mrel (g g' : ram -> eff ram unit) rs rs' : (forall r r', mram r r' -> eff_rel mram (g r) (g' r')) -> Forall2 mram rs rs' -> eff_rel (Forall2 mram) (rams_update g rs) (rams_update g' rs').
Proof.
  intros Hg. induction 1 as [|r r' rs rs' Hr Hrs IH]; cbn [rams_update]; [split; [reflexivity|constructor]|]. specialize (Hg r r' Hr).
  destruct (g r) as [o q], (g' r') as [o' q']. destruct Hg as [E HR]. cbn in E, HR. subst o'. destruct o as [[]| | |]; [|split; [reflexivity|]; cbn; constructor; assumption..].
  destruct (rams_update g rs) as [o qs], (rams_update g' rs') as [o' qs']. destruct IH as [E HRs]. cbn in E, HRs. subst o'. split; [reflexivity|]. cbn. constructor; assumption.
Qed.
Lemma disc_train_mrel d d' x x' : mdisc d d' -> ren x x' -> eff_rel mdisc (disc_train d x) (disc_train d' x').
Proof.
  intros HD Hx. pose proof HD as [E1 E2 HR]. unfold disc_train. rewrite E1, E2, (size_rel x x' Hx). destruct (checkEntrySize _ _); [|split; [reflexivity|exact HD]..]. destruct (int_of _) as [c| | |]; [|split; [reflexivity|exact HD]..].
  pose proof (update_mrel (fun r => ram_train r x) (fun r => ram_train r x') _ _ (fun r r' H => train_mrel r r' x x' H Hx) HR) as H.
  destruct (rams_update _ (d_rams d)) as [o rs], (rams_update _ (d_rams d')) as [o' rs']. destruct H as [E HRs]. cbn in E, HRs. subst o'. split; [reflexivity|]. cbn. constructor; [reflexivity|reflexivity|exact HRs].
Qed.
Lemma disc_untrain_mrel d d' x x' : mdisc d d' -> ren x x' -> eff_rel mdisc (disc_untrain d x) (disc_untrain d' x').
Proof.
  intros HD Hx. pose proof HD as [E1 E2 HR]. unfold disc_untrain. rewrite E1, E2, (size_rel x x' Hx). destruct (checkEntrySize _ _); [|split; [reflexivity|exact HD]..]. destruct (int_of _) as [c| | |]; [|split; [reflexivity|exact HD]..].
  pose proof (update_mrel (fun r => ram_untrain r x) (fun r => ram_untrain r x') _ _ (fun r r' H => untrain_mrel r r' x x' H Hx) HR) as H.
  destruct (rams_update _ (d_rams d)) as [o rs], (rams_update _ (d_rams d')) as [o' rs']. destruct H as [E HRs]. cbn in E, HRs. subst o'. split; [reflexivity|]. cbn. constructor; [reflexivity|reflexivity|exact HRs].
Qed.
Lemma disc_classify_mrel d d' x x' : mdisc d d' -> ren x x' -> disc_classify d' x' = disc_classify d x.
Proof.
  intros [E1 _ HR] Hx. unfold disc_classify. rewrite E1, (size_rel x x' Hx). destruct (checkEntrySize _ _); [|reflexivity..]. cbn [rbind].
  induction HR as [|r r' rs rs' Hr _ IH]; [reflexivity|]. cbn [rmapM]. rewrite (vote_mrel r r' x x' Hr Hx), IH. reflexivity.
Qed.

(** ** The random choices that lead to the moved wiring *)
Definition lift_mrel (o o' : res disc) : Prop :=
  match o, o' with Ok d, Ok d' => mdisc d d' | Throw e, Throw e' => e' = e | UB u, UB u' => u' = u | Hang, Hang => True | _, _ => False end.
Context (a : Z) (c : bool).
Definition dmatch (dr dr' : draw) : Prop := forall iz base, lift_mrel (setRAMShuffle dr n a iz c base) (setRAMShuffle dr' n a iz c base).
Definition zs : list Z := Z.of_nat <$> seq 0 (Z.to_nat n).
Definition extra : Z := if c && (0 <? Z.rem n a) then a - Z.rem n a else 0.
Definition fill (dr : draw) : list Z := (fun i => Z.rem (dr_rand dr i) n) <$> seq 0 (Z.to_nat extra).
Definition redraw (dr : draw) : draw :=
  Draw (fun i => pi (Z.rem (dr_rand dr i) n)) (fun l => if decide (l = zs ++ (pi <$> fill dr)) then pi <$> dr_shuffle dr (zs ++ fill dr) else l).
Lemma redraw_valid dr : valid_draw dr -> valid_draw (redraw dr).
Proof using Hn Hpi.
  intros [Hr Hs]. split; cbn [redraw dr_rand dr_shuffle].
  - intros i. pose proof (pi_range (Z.rem (dr_rand dr i) n)) as H. specialize (Hr i). assert (0 <= Z.rem (dr_rand dr i) n < n) by (apply Z.rem_bound_pos; lia). lia.
  - intros l. destruct (decide _) as [->|]; [|reflexivity]. rewrite Hs, fmap_app. apply Permutation_app_tail. exact Hpi.
Qed.
Lemma randint_small r : 0 <= r <= INT_MAX -> randint 0 (n - 1) r = Ok (Z.rem r n).
Proof using Hn.
  intros Hr. unfold randint. replace (n - 1 - 0 + 1) with n by lia. assert (0 <= Z.rem r n < n) by (apply Z.rem_bound_pos; lia).
  rewrite int_of_ok by (unfold is_int, INT_MIN, INT_MAX in *; lia). cbn [rbind]. destruct (Z.eqb_spec n 0); [lia|]. apply int_of_ok. unfold is_int, INT_MIN, INT_MAX in *. lia.
Qed.
Lemma fill_ok dr : valid_draw dr -> rmapM (fun i => randint 0 (n - 1) (dr_rand dr i)) (seq 0 (Z.to_nat extra)) = Ok (fill dr).
Proof using Hn. intros [Hr _]. apply rmapM_total. intros i _. apply randint_small, Hr. Qed.
Lemma fill_redraw dr : valid_draw dr -> fill (redraw dr) = pi <$> fill dr.
Proof using Hn Hpi.
  intros [Hr _]. unfold fill. rewrite <- list_fmap_compose. apply list_fmap_ext. intros i x _. cbn. apply Z.rem_small. apply pi_range, Z.rem_bound_pos; [apply Hr|lia].
Qed.
Lemma redraw_match dr : valid_draw dr -> dmatch dr (redraw dr).
Proof using Hn Hpi.
  intros Hd iz base. unfold setRAMShuffle. destruct (checkAddressSize n a); cbn [rbind lift_mrel]; try reflexivity. destruct (checkBase base); cbn [rbind lift_mrel]; try reflexivity.
  fold extra. destruct (int_of (n + extra)); cbn [rbind lift_mrel]; try reflexivity. rewrite (fill_ok dr Hd), (fill_ok _ (redraw_valid dr Hd)), (fill_redraw dr Hd). cbn [rbind].
  fold zs. assert (Es : dr_shuffle (redraw dr) (zs ++ (pi <$> fill dr)) = pi <$> dr_shuffle dr (zs ++ fill dr)) by (cbn [redraw dr_shuffle]; destruct (decide _); [reflexivity|congruence]). rewrite Es.
  assert (Hin : Forall (fun p => 0 <= p < n) (dr_shuffle dr (zs ++ fill dr))).
  { destruct Hd as [Hr Hs]. rewrite Hs. apply Forall_app. split; apply Forall_forall; intros p Hp; apply elem_of_list_fmap in Hp as (i & -> & Hi); [apply elem_of_seq in Hi; lia|]. apply Z.rem_bound_pos; [apply Hr|lia]. }
  revert Hin. generalize (dr_shuffle dr (zs ++ fill dr)). intros idx Hin. generalize (if c && (0 <? Z.rem n a) then Z.quot n a + 1 else Z.quot n a). intros k. unfold make_rams.
  assert (Esub : forall i, sub_indexes (pi <$> idx) a i = pi <$> sub_indexes idx a i) by (intros i; unfold sub_indexes; rewrite fmap_take, fmap_drop; reflexivity).
  assert (Hsub : forall i, Forall (fun p => 0 <= p < n) (sub_indexes idx a i)) by (intros i; unfold sub_indexes; apply Forall_take, Forall_drop, Hin).
  assert (G : forall l, match rmapM (fun i => ram_new (sub_indexes idx a i) iz base) l, rmapM (fun i => ram_new (sub_indexes (pi <$> idx) a i) iz base) l with
    | Ok rs, Ok rs' => Forall2 mram rs rs' | Throw e, Throw e' => e' = e | UB u, UB u' => u' = u | Hang, Hang => True | _, _ => False end).
  { induction l as [|i l IH]; cbn [rmapM]; [constructor|]. rewrite Esub. assert (El : len (pi <$> sub_indexes idx a i) = len (sub_indexes idx a i)) by (unfold len; rewrite fmap_length; reflexivity).
    assert (E1 : ram_new (sub_indexes idx a i) iz base = let* _ := checkLimitAddressSize (s32 (len (sub_indexes idx a i))) base in Ok (Ram (sub_indexes idx a i) ∅ iz base)) by reflexivity.
    assert (E2 : ram_new (pi <$> sub_indexes idx a i) iz base = let* _ := checkLimitAddressSize (s32 (len (sub_indexes idx a i))) base in Ok (Ram (pi <$> sub_indexes idx a i) ∅ iz base)) by (unfold ram_new; rewrite El; reflexivity).
    rewrite E1, E2. destruct (checkLimitAddressSize _ _); cbn [rbind]; try reflexivity. revert IH.
    destruct (rmapM (fun i => ram_new (sub_indexes idx a i) iz base) l), (rmapM (fun i => ram_new (sub_indexes (pi <$> idx) a i) iz base) l); cbn [rbind]; intros IH; try contradiction; try exact IH.
    constructor; [|exact IH]. constructor; try reflexivity. apply Hsub. }
  specialize (G (seq 0 (Z.to_nat k))). revert G.
  destruct (rmapM (fun i => ram_new (sub_indexes idx a i) iz base) (seq 0 (Z.to_nat k))), (rmapM (fun i => ram_new (sub_indexes (pi <$> idx) a i) iz base) (seq 0 (Z.to_nat k))); cbn [rbind lift_mrel]; intros G; try contradiction; try exact G. constructor; [reflexivity|reflexivity|exact G].
Qed.
End sim.
