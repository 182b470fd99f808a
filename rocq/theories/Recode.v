(** Lemmas for C151. *)
From Verif Require Import Prelude Bytes Utils BinInput Bleaching Ram Disc DataSet Wisard SpecDisc SpecBleach SpecWisard SpecRecode.
From Verif Require Import BytesProofs UtilsProofs TextProofs BleachProofs DiscCtorProofs CtorFacts RamProofs DiscProofs DiscFacts WisardProofs WisardFacts WisardMore Recall Repeat Move.

(** ** Wirings are not touched by training *)
Definition skel (d : disc) : list (list Z * bool) := (fun r => (r_addresses r, r_ignoreZero r)) <$> d_rams d.
Lemma update_skel (f : ram -> eff ram unit) (rs : list ram) : (forall r, r_addresses (f r).2 = r_addresses r /\ r_ignoreZero (f r).2 = r_ignoreZero r) ->
  (fun r => (r_addresses r, r_ignoreZero r)) <$> (rams_update f rs).2 = (fun r => (r_addresses r, r_ignoreZero r)) <$> rs.
Proof.
  intros Hf. induction rs as [|r rs IH]; [reflexivity|]. cbn [rams_update]. destruct (Hf r) as [Ha Hz]. destruct (f r) as [[[]|e|u|] r'] eqn:E; cbn [snd] in Ha, Hz.
  - destruct (rams_update f rs) as [o rs'] eqn:E'. cbn [snd] in *. rewrite !fmap_cons, Ha, Hz, IH. reflexivity.
  - cbn [snd]. rewrite !fmap_cons, Ha, Hz. reflexivity.
  - cbn [snd]. rewrite !fmap_cons, Ha, Hz. reflexivity.
  - cbn [snd]. rewrite !fmap_cons, Ha, Hz. reflexivity.
Qed.
Lemma train_skel d x : skel (disc_train d x).2 = skel d.
Proof.
  unfold disc_train. destruct (checkEntrySize _ _); [|reflexivity..]. destruct (int_of _); [|reflexivity..].
  pose proof (update_skel (fun r => ram_train r x) (d_rams d)) as H. destruct (rams_update _ _) as [o rs]. cbn [snd] in *. apply H.
  intros r. unfold ram_train. destruct (getIndex r x); [|split; reflexivity..]. destruct (_ !! _); [|split; reflexivity]. destruct (int_of _); split; reflexivity.
Qed.
Lemma untrain_skel d x : skel (disc_untrain d x).2 = skel d.
Proof.
  unfold disc_untrain. destruct (checkEntrySize _ _); [|reflexivity..]. destruct (int_of _); [|reflexivity..].
  pose proof (update_skel (fun r => ram_untrain r x) (d_rams d)) as H. destruct (rams_update _ _) as [o rs]. cbn [snd] in *. apply H.
  intros r. unfold ram_untrain. destruct (getIndex r x); [|split; reflexivity..]. destruct (_ !! _); [|split; reflexivity]. destruct (int_of _); split; reflexivity.
Qed.
Lemma after_skel d0 h d : after d0 h d -> skel d = skel d0.
Proof.
  intros [_ _ Hr]. unfold skel. induction Hr as [|r0 r rs0 rs [[Ha _ Hz] _] _ IH]; [reflexivity|]. rewrite !fmap_cons, Ha, Hz, IH. reflexivity.
Qed.
Lemma new_skel {A} (g : A -> list Z) (l : list A) iz b b' rs rs' : rmapM (fun a => ram_new (g a) iz b) l = Ok rs -> rmapM (fun a => ram_new (g a) iz b') l = Ok rs' ->
  (fun r => (r_addresses r, r_ignoreZero r)) <$> rs = (fun r => (r_addresses r, r_ignoreZero r)) <$> rs'.
Proof.
  revert rs rs'. induction l as [|a l IH]; intros rs rs' H H'; cbn [rmapM] in H, H'; [congruence|].
  unfold ram_new in H at 1. unfold ram_new in H' at 1. destruct (checkLimitAddressSize (s32 (len (g a))) b); try discriminate. destruct (checkLimitAddressSize (s32 (len (g a))) b'); try discriminate. cbn [rbind] in *.
  destruct (rmapM (fun a => ram_new (g a) iz b) l) as [qs| | |]; try discriminate. destruct (rmapM (fun a => ram_new (g a) iz b') l) as [qs'| | |]; try discriminate. cbn [rbind] in *.
  injection H as <-. injection H' as <-. rewrite !fmap_cons. cbn [r_addresses r_ignoreZero]. f_equal. apply IH; reflexivity.
Qed.
Lemma construct_skel dr w b' l n d d' : construct_discriminator dr w l n = Ok d -> construct_discriminator dr (with_base w b') l n = Ok d' -> skel d = skel d'.
Proof.
  unfold construct_discriminator. cbn [with_base w_mapping w_indexes w_addressSize w_ignoreZero w_completeAddressing w_base]. destruct (w_mapping w !! l) as [m|].
  - unfold setRAMByMapping. destruct (checkBase (w_base w)); try discriminate. destruct (checkBase b'); try discriminate. cbn [rbind].
    destruct (rmapM (fun addrs => ram_new addrs (w_ignoreZero w) (w_base w)) m) as [rs| | |] eqn:E; try discriminate. destruct (rmapM (fun addrs => ram_new addrs (w_ignoreZero w) b') m) as [rs'| | |] eqn:E'; try discriminate.
    cbn [rbind]. intros [= <-] [= <-]. exact (new_skel (fun a => a) m _ _ _ rs rs' E E').
  - destruct (negb _).
    + unfold setRAMByIndex. destruct (checkAddressSize _ _); try discriminate. cbn [rbind]. destruct (checkBase (w_base w)); try discriminate. destruct (checkBase b'); try discriminate. cbn [rbind].
      destruct (checkListOfIndexes _ _); try discriminate. cbn [rbind]. unfold make_rams.
      match goal with |- rbind ?a _ = _ -> rbind ?b _ = _ -> _ => destruct a as [rs| | |] eqn:E; try discriminate; destruct b as [rs'| | |] eqn:E'; try discriminate end.
      cbn [rbind]. intros [= <-] [= <-]. unfold skel. cbn [d_rams]. eapply new_skel; eassumption.
    + unfold setRAMShuffle. destruct (checkAddressSize _ _); try discriminate. cbn [rbind]. destruct (checkBase (w_base w)); try discriminate. destruct (checkBase b'); try discriminate. cbn [rbind].
      destruct (int_of _); try discriminate. cbn [rbind]. destruct (rmapM _ _) as [fl| | |]; try discriminate. cbn [rbind]. unfold make_rams.
      match goal with |- rbind ?a _ = _ -> rbind ?b _ = _ -> _ => destruct a as [rs| | |] eqn:E; try discriminate; destruct b as [rs'| | |] eqn:E'; try discriminate end.
      cbn [rbind]. intros [= <-] [= <-]. unfold skel. cbn [d_rams]. eapply new_skel; eassumption.
Qed.

Lemma new_iz {A} (g : A -> list Z) (l : list A) iz b rs : rmapM (fun a => ram_new (g a) iz b) l = Ok rs -> Forall (fun r => r_ignoreZero r = iz) rs.
Proof.
  revert rs. induction l as [|a l IH]; intros rs H; cbn [rmapM] in H; [injection H as <-; constructor|].
  unfold ram_new in H at 1. destruct (checkLimitAddressSize (s32 (len (g a))) b); try discriminate. cbn [rbind] in *.
  destruct (rmapM (fun a => ram_new (g a) iz b) l) as [qs| | |]; try discriminate. cbn [rbind] in *. injection H as <-. constructor; [reflexivity|apply IH; reflexivity].
Qed.
Lemma construct_iz dr w l n d : construct_discriminator dr w l n = Ok d -> Forall (fun r => r_ignoreZero r = w_ignoreZero w) (d_rams d).
Proof.
  unfold construct_discriminator. destruct (w_mapping w !! l) as [m|].
  - unfold setRAMByMapping. destruct (checkBase (w_base w)); try discriminate. cbn [rbind].
    destruct (rmapM (fun addrs => ram_new addrs (w_ignoreZero w) (w_base w)) m) as [rs| | |] eqn:E; try discriminate. intros [= <-]. exact (new_iz (fun a => a) m _ _ rs E).
  - destruct (negb _).
    + unfold setRAMByIndex. destruct (checkAddressSize _ _); try discriminate. destruct (checkBase (w_base w)); try discriminate. cbn [rbind]. destruct (checkListOfIndexes _ _); try discriminate. cbn [rbind]. unfold make_rams.
      match goal with |- rbind ?a _ = _ -> _ => destruct a as [rs| | |] eqn:E; try discriminate end. intros [= <-]. cbn [d_rams]. eapply new_iz; eassumption.
    + unfold setRAMShuffle. destruct (checkAddressSize _ _); try discriminate. destruct (checkBase (w_base w)); try discriminate. cbn [rbind].
      destruct (int_of _); try discriminate. cbn [rbind]. destruct (rmapM _ _) as [fl| | |]; try discriminate. cbn [rbind]. unfold make_rams.
      match goal with |- rbind ?a _ = _ -> _ => destruct a as [rs| | |] eqn:E; try discriminate end. intros [= <-]. cbn [d_rams]. eapply new_iz; eassumption.
Qed.

Section sim.
Context (w0 : wisard) (b' : Z).
Definition sim (w w' : wisard) : Prop := exists ds ds' : gmap str disc, w = with_discriminators w0 ds /\ w' = with_discriminators (with_base w0 b') ds' /\
  forall l, skel <$> (ds !! l) = skel <$> (ds' !! l).
Lemma sim_insert (ds ds' : gmap str disc) k d d' : (forall l, skel <$> (ds !! l) = skel <$> (ds' !! l)) -> skel d = skel d' ->
  forall l, skel <$> (<[k := d]> ds !! l) = skel <$> (<[k := d']> ds' !! l).
Proof. intros H Hd l. destruct (decide (k = l)) as [<-|Hn]; [rewrite !lookup_insert; cbn; f_equal; exact Hd|rewrite !lookup_insert_ne by exact Hn; apply H]. Qed.
Lemma at_sim (g g' : disc -> eff disc unit) w w' l v v' : (forall d, skel (g d).2 = skel d) -> (forall d, skel (g' d).2 = skel d) -> sim w w' ->
  at_label g w l = (Ok tt, v) -> at_label g' w' l = (Ok tt, v') -> sim v v'.
Proof.
  intros Hg Hg' (ds & ds' & -> & -> & H). unfold at_label. cbn [with_discriminators w_discriminators]. pose proof (H l) as Hl.
  destruct (ds !! l) as [d|], (ds' !! l) as [d'|]; try discriminate. specialize (Hg d). specialize (Hg' d'). destruct (g d) as [o e], (g' d') as [o' e']. cbn [snd] in *.
  injection Hl as Hl. intros [= -> <-] [= -> <-]. exists (<[l := e]> ds), (<[l := e']> ds'). split; [reflexivity|]. split; [reflexivity|]. apply sim_insert; [exact H|congruence].
Qed.
Lemma train1_sim lhs lhs' env w w' x x' l v v' : im_size x = im_size x' -> sim w w' ->
  wisard_train1 lhs env w x l = (Ok tt, v) -> wisard_train1 lhs' env w' x' l = (Ok tt, v') -> sim v v'.
Proof.
  intros Hs HS. pose proof HS as (ds & ds' & Ew & Ew' & H). unfold wisard_train1. pose proof (H l) as Hl. subst w w'. cbn [with_discriminators w_discriminators] in *.
  destruct (ds !! l) as [d|] eqn:E, (ds' !! l) as [d'|] eqn:E'; try discriminate.
  - apply at_sim; [intros; apply train_skel..|exact HS].
  - rewrite <- Hs. unfold makeDiscriminator.
    change (construct_discriminator (env l) (with_discriminators w0 ds) l (s32 (im_size x))) with (construct_discriminator (env l) w0 l (s32 (im_size x))).
    change (construct_discriminator (env l) (with_discriminators (with_base w0 b') ds') l (s32 (im_size x))) with (construct_discriminator (env l) (with_base w0 b') l (s32 (im_size x))).
    destruct (construct_discriminator (env l) w0 l (s32 (im_size x))) as [d| | |] eqn:F; try discriminate.
    destruct (construct_discriminator (env l) (with_base w0 b') l (s32 (im_size x))) as [d'| | |] eqn:F'; try discriminate. cbn [ebind].
    apply at_sim; [intros; apply train_skel..|]. exists (<[l := d]> ds), (<[l := d']> ds'). split; [reflexivity|]. split; [reflexivity|]. apply sim_insert; [exact H|]. eapply construct_skel; eassumption.
Qed.
Lemma leave1_sim w w' x x' l v v' : sim w w' -> leaveOneOut w x l = (Ok tt, v) -> leaveOneOut w' x' l = (Ok tt, v') -> sim v v'.
Proof.
  intros HS. pose proof HS as (ds & ds' & Ew & Ew' & H). unfold leaveOneOut. pose proof (H l) as Hl. subst w w'. cbn [with_discriminators w_discriminators] in *.
  destruct (ds !! l) as [d|] eqn:E, (ds' !! l) as [d'|] eqn:E'; try discriminate; [apply at_sim; [intros; apply untrain_skel..|exact HS]|]. intros [= <-] [= <-]. exact HS.
Qed.
Lemma ebind_ok {S A B} (m : eff S A) (k : A -> S -> eff S B) (b : B) (s : S) : ebind m k = (Ok b, s) -> exists a s1, m = (Ok a, s1) /\ k a s1 = (Ok b, s).
Proof. destruct m as [[a| | |] s1]; cbn; try discriminate. eauto. Qed.
Lemma tloop_sim lhs lhs' env n f : forall xs xs' ls w w' v v', Forall2 (recoded f n) xs xs' -> sim w w' ->
  wisard_train_loop lhs env w xs ls = (Ok tt, v) -> wisard_train_loop lhs' env w' xs' ls = (Ok tt, v') -> sim v v'.
Proof.
  intros xs xs' ls w w' v v' H. revert ls w w'. induction H as [|x x' xs xs' Hx _ IH]; intros ls w w' HS E E'.
  - cbn in E, E'. injection E as <-. injection E' as <-. exact HS.
  - destruct ls as [|l ls]; [discriminate|]. cbn [wisard_train_loop] in E, E'. apply ebind_ok in E as ([] & w1 & E1 & E). apply ebind_ok in E' as ([] & w1' & E1' & E').
    eapply IH; [|exact E|exact E']. eapply train1_sim; [|exact HS|exact E1|exact E1']. destruct Hx as (Ha & Hb & _). congruence.
Qed.
Lemma lloop_sim n f : forall xs xs' ls w w' v v', Forall2 (recoded f n) xs xs' -> sim w w' ->
  leaveMoreOut_loop w xs ls = (Ok tt, v) -> leaveMoreOut_loop w' xs' ls = (Ok tt, v') -> sim v v'.
Proof.
  intros xs xs' ls w w' v v' H. revert ls w w'. induction H as [|x x' xs xs' Hx _ IH]; intros ls w w' HS E E'.
  - cbn in E, E'. injection E as <-. injection E' as <-. exact HS.
  - destruct ls as [|l ls]; [discriminate|]. cbn [leaveMoreOut_loop] in E, E'. apply ebind_ok in E as ([] & w1 & E1 & E). apply ebind_ok in E' as ([] & w1' & E1' & E').
    eapply IH; [|exact E|exact E']. eapply leave1_sim; eassumption.
Qed.
Lemma call_sim lhs lhs' n f c c' w w' v v' : recoded_call f n c c' -> sim w w' -> wcall_run lhs w c = (Ok tt, v) -> wcall_run lhs' w' c' = (Ok tt, v') -> sim v v'.
Proof.
  intros [env xs xs' ls H|x x' l H|xs xs' ls H] HS; cbn [wcall_run].
  - unfold wisard_train. destruct H as [|x x' xs xs' Hx H]; [discriminate|].
    destruct (calculateNumberOfRams _ (w_addressSize w) _); try discriminate. destruct (checkConfidence (w_confidence w) _); try discriminate. destruct (checkInputSizes _ _); try discriminate.
    destruct (calculateNumberOfRams _ (w_addressSize w') _); try discriminate. destruct (checkConfidence (w_confidence w') _); try discriminate. destruct (checkInputSizes _ _); try discriminate.
    apply (tloop_sim lhs lhs' env n f); [constructor; assumption|exact HS].
  - apply leave1_sim, HS.
  - unfold leaveMoreOut. destruct (checkInputSizes _ _); try discriminate. destruct (checkInputSizes _ _); try discriminate. apply (lloop_sim n f); assumption.
Qed.
Lemma run_sim lhs lhs' n f cs cs' : Forall2 (recoded_call f n) cs cs' -> forall w w' v v', sim w w' -> wrun lhs w cs = (Ok tt, v) -> wrun lhs' w' cs' = (Ok tt, v') -> sim v v'.
Proof.
  induction 1 as [|c c' cs cs' Hc _ IH]; intros w w' v v' HS E E'; unfold wrun in *; cbn [efor] in E, E'.
  - injection E as <-. injection E' as <-. exact HS.
  - apply ebind_ok in E as ([] & w1 & E1 & E). apply ebind_ok in E' as ([] & w1' & E1' & E'). eapply IH; [|exact E|exact E']. eapply call_sim; eassumption.
Qed.
End sim.

(** ** Votes *)
Section recode.
Context (f : Z -> Z -> Z) (b b' n : Z) (Hf : recodes f b b' n).
Definition inside (x : image) : Prop := plain_image b n x.
Lemma plain_recoded x x' : recoded f n x x' -> inside x -> plain_image b' n x'.
Proof using Hf. intros (_ & Hs & Hr) (_ & Hx). split; [exact Hs|]. intros p Hp. destruct (Hx p Hp) as (v & E & Hv). exists (f p v). split; [apply Hr; assumption|apply Hf; assumption]. Qed.
Lemma agree_recoded addrs x x' y y' : Forall (fun p => 0 <= p < n) addrs -> inside x -> inside y -> recoded f n x x' -> recoded f n y y' -> agree addrs x' y' <-> agree addrs x y.
Proof using Hf.
  intros Ha (_ & Ix) (_ & Iy) (_ & _ & Hx) (_ & _ & Hy). unfold agree. rewrite !Forall_forall. rewrite Forall_forall in Ha.
  split; intros H p Hp; specialize (H p Hp); specialize (Ha p Hp); cbv beta in *; destruct (Ix p Ha) as (u & Eu & Hu), (Iy p Ha) as (v & Ev & Hv).
  - rewrite (Hx p u Ha Eu), (Hy p v Ha Ev) in H. injection H as H. rewrite Eu, Ev. f_equal. eapply Hf; eassumption.
  - rewrite (Hx p u Ha Eu), (Hy p v Ha Ev). rewrite Eu, Ev in H. congruence.
Qed.
Lemma zero_recoded addrs x x' : keeps_zero f n -> 0 < b -> Forall (fun p => 0 <= p < n) addrs -> inside x -> recoded f n x x' -> all_zero addrs x' <-> all_zero addrs x.
Proof using Hf.
  intros Hk Hb Ha (_ & Ix) (_ & _ & Hx). unfold all_zero. rewrite !Forall_forall. rewrite Forall_forall in Ha.
  split; intros H p Hp; specialize (H p Hp); specialize (Ha p Hp); cbv beta in *; destruct (Ix p Ha) as (u & Eu & Hu).
  - rewrite (Hx p u Ha Eu) in H. injection H as H. rewrite Eu. f_equal. eapply (Hf p Ha); [exact Hu|lia|]. rewrite H, Hk by exact Ha. reflexivity.
  - rewrite (Hx p u Ha Eu). rewrite Eu in H. injection H as ->. rewrite Hk by exact Ha. reflexivity.
Qed.
Inductive recoded_op : dop -> dop -> Prop :=
| rop_train x x' : inside x -> recoded f n x x' -> recoded_op (Train x) (Train x')
| rop_untrain x x' : inside x -> recoded f n x x' -> recoded_op (Untrain x) (Untrain x').
Lemma due_recoded addrs x x' h h' : Forall (fun p => 0 <= p < n) addrs -> inside x -> recoded f n x x' -> Forall2 recoded_op h h' ->
  trainings addrs x' h' - effective_untrainings addrs x' h' = trainings addrs x h - effective_untrainings addrs x h.
Proof using Hf.
  intros Ha Ix Hx Hh.
  assert (C : forall h h', Forall2 recoded_op h h' -> trainings addrs x h = trainings addrs x' h').
  { intros g g' Hg. unfold trainings. eapply count_moved; [|exact Hg]. intros o o' [y y' Iy Hy|y y' Iy Hy]; [|reflexivity]. apply bool_decide_ext. symmetry. apply agree_recoded; assumption. }
  assert (E2 : effective_untrainings addrs x h = effective_untrainings addrs x' h').
  { induction Hh as [|o o' h h' Ho Hh IH]; [reflexivity|]. destruct Ho as [y y' Iy Hy|y y' Iy Hy]; cbn [effective_untrainings]; [|exact IH].
    pose proof (agree_recoded addrs x x' y y' Ha Ix Iy Hx Hy) as Hag. destruct (decide (agree addrs x y)) as [Hd|Hd], (decide (agree addrs x' y')) as [Hd'|Hd']; try tauto.
    eapply count_moved; [|exact Hh]. intros p p' [z z' Iz Hz|z z' Iz Hz]; [reflexivity|]. apply bool_decide_ext. symmetry. apply agree_recoded; assumption. }
  rewrite (C h h' Hh). lia.
Qed.
Definition recoded_ex (e e' : str * dop) : Prop := e.1 = e'.1 /\ recoded_op e.2 e'.2.
Lemma history_recoded l es es' : Forall2 recoded_ex es es' -> Forall2 recoded_op (history l es) (history l es').
Proof.
  intros H. assert (G : Forall2 recoded_op (of_label l es) (of_label l es')).
  { unfold of_label. induction H as [|[k o] [k' o'] es es' [Hk Ho] _ IH]; [constructor|]. cbn in Hk, Ho. subst k'. rewrite !filter_cons. cbn [fst].
    destruct (decide (k = l)); [|exact IH]. rewrite !fmap_cons. constructor; assumption. }
  unfold history. induction G as [|o o' h h' Ho Hh IH]; [constructor|].
  destruct Ho as [x x' Ix Hx|x x' Ix Hx]; cbn [since_first_training]; [constructor; [constructor; assumption|exact Hh]|exact IH].
Qed.
Lemma zip_recoded (F : image -> dop) : (forall x x', inside x -> recoded f n x x' -> recoded_op (F x) (F x')) -> (forall x, op_image (F x) = x) -> forall ls xs xs',
  Forall2 (recoded f n) xs xs' -> Forall (fun e => inside (op_image e.2)) (zip ls (F <$> xs)) -> Forall2 recoded_ex (zip ls (F <$> xs)) (zip ls (F <$> xs')).
Proof.
  intros HF Hi. induction ls as [|l ls IH]; intros xs xs' H HI; [constructor|]. destruct H as [|x x' xs xs' Hx H]; [constructor|]. cbn in *. apply Forall_cons in HI as [Ix HI]. cbn in Ix. rewrite Hi in Ix.
  constructor; [split; [reflexivity|apply HF; assumption]|apply IH; assumption].
Qed.
Lemma examples_recoded c c' : recoded_call f n c c' -> Forall (fun e => inside (op_image e.2)) (examples c) -> Forall2 recoded_ex (examples c) (examples c').
Proof.
  intros [env xs xs' ls H|x x' l H|xs xs' ls H] HI; cbn [examples] in *.
  - apply zip_recoded; [intros; constructor; assumption|reflexivity|exact H|exact HI].
  - apply Forall_cons in HI as [Ix _]. constructor; [split; [reflexivity|constructor; [exact Ix|exact H]]|constructor].
  - apply zip_recoded; [intros; constructor; assumption|reflexivity|exact H|exact HI].
Qed.
Lemma all_recoded cs cs' : Forall2 (recoded_call f n) cs cs' -> Forall (fun c => Forall (fun e => inside (op_image e.2)) (examples c)) cs -> Forall2 recoded_ex (all_examples cs) (all_examples cs').
Proof. unfold all_examples. induction 1 as [|c c' cs cs' Hc _ IH]; intros HI; [constructor|]. apply Forall_cons in HI as [Hi HI]. rewrite !fmap_cons. cbn [List.concat]. apply Forall2_app; [apply examples_recoded; assumption|apply IH, HI]. Qed.

Lemma recoded_owed (iz : bool) (d0 d0' : gmap str disc) (es es' : list (str * dop)) (x x' : image) : (iz = true -> keeps_zero f n) -> 0 < b -> Forall2 recoded_ex es es' -> inside x -> recoded f n x x' ->
  (forall l d, d0 !! l = Some d -> Forall (fun r => r_ignoreZero r = iz /\ Forall (fun p => 0 <= p < n) (r_addresses r)) (d_rams d)) ->
  (forall l, skel <$> (d0 !! l) = skel <$> (d0' !! l)) ->
  votes_owed d0' es' x' = votes_owed d0 es x.
Proof using Hf.
  intros Hz Hb He Ix Hx Hin Hd. apply map_eq. intros l. rewrite !owed_lookup. specialize (Hd l). specialize (Hin l). destruct (d0 !! l) as [d|], (d0' !! l) as [d'|]; try discriminate; [|reflexivity].
  cbn. f_equal. injection Hd as Hd. specialize (Hin d eq_refl). pose proof (history_recoded l es es' He) as Hh. unfold skel in Hd. revert Hd Hin. generalize (d_rams d) (d_rams d').
  intros rs. induction rs as [|r rs IH]; intros [|r' rs'] Hd Hin; try discriminate; [reflexivity|]. rewrite !fmap_cons in Hd. injection Hd as E1 E2 Hd. apply Forall_cons in Hin as [[Hiz Ha] Hin].
  rewrite !fmap_cons, (IH rs' Hd Hin). f_equal. unfold vote_due. rewrite <- E1, <- E2, Hiz. rewrite (due_recoded _ x x' _ _ Ha Ix Hx Hh). destruct iz; [|reflexivity].
  rewrite (bool_decide_ext _ _ (zero_recoded (r_addresses r) x x' (Hz eq_refl) Hb Ha Ix Hx)). reflexivity.
Qed.
End recode.

Lemma recoded_wisard lhs lhs' f w0 b' n cs cs' : recodes f (w_base w0) b' n -> (w_ignoreZero w0 = true -> keeps_zero f n) -> 2 <= b' ->
  w_discriminators w0 = ∅ -> configured w0 n -> Forall (proper_call w0 n) cs -> Forall2 (recoded_call f n) cs cs' ->
  (forall l, trained l (all_examples cs) -> can_learn (with_base w0 b') n l) -> len (all_examples cs) <= INT_MAX - 2 ->
  exists w w', wrun lhs w0 cs = (Ok tt, w) /\ wrun lhs' (with_base w0 b') cs' = (Ok tt, w') /\
    forall x x', plain_image (w_base w0) n x -> recoded f n x x' ->
      exists cand, wisard_candidates w x = Ok cand /\ wisard_candidates w' x' = Ok cand.
Proof.
  intros Hf Hz Hb' H0 Hc Hp Hm Hlearn Hl. assert (Hn : 0 <= n <= INT_MAX) by apply Hc. assert (Hb : 2 <= w_base w0) by apply Hc.
  assert (HI : Forall (fun c => Forall (fun e => inside (w_base w0) n (op_image e.2)) (examples c)) cs) by (eapply Forall_impl; [exact Hp|]; intros c [H _]; exact H).
  pose proof (all_recoded f (w_base w0) n cs cs' Hm HI) as He.
  assert (Hl' : len (all_examples cs') <= INT_MAX - 2) by (unfold len in *; rewrite <- (Forall2_length _ _ _ He); exact Hl).
  assert (Hp' : Forall (proper_call (with_base w0 b') n) cs').
  { assert (HL : forall c, c ∈ cs -> forall l x, (l, Train x) ∈ examples c -> can_learn (with_base w0 b') n l).
    { intros c Hcc l x Hx. apply Hlearn. exists x. unfold all_examples. apply elem_of_list_In, in_concat. exists (examples c). split; [|apply elem_of_list_In, Hx]. apply elem_of_list_In, elem_of_list_fmap. eauto. }
    clear -Hm Hp HI HL Hf. induction Hm as [|c c' cs cs' Hcc _ IH]; [constructor|]. apply Forall_cons in Hp as [Hpc Hp]. apply Forall_cons in HI as [Hi HI].
    constructor; [|apply IH; [exact Hp|exact HI|intros c0 H0 l x Hx; eapply HL; [right; exact H0|exact Hx]]].
    split.
    - pose proof (examples_recoded f (w_base w0) n c c' Hcc Hi) as H. clear -H Hf. cbn [with_base w_base]. induction H as [|[k o] [k' o'] es es' [_ Ho] _ IH]; [constructor|]. constructor; [|exact IH]. cbn in *.
      destruct Ho as [x x' Ix Hx|x x' Ix Hx]; eapply plain_recoded; eassumption.
    - destruct Hpc as [_ Hpc]. assert (Hlen : forall xs xs', Forall2 (recoded f n) xs xs' -> len xs' = len xs) by (intros xs xs' H; unfold len; rewrite (Forall2_length _ _ _ H); reflexivity).
      specialize (HL c (elem_of_list_here _ _)). destruct Hcc as [env xs xs' ls H|x x' l H|xs xs' ls H]; [|exact I|rewrite (Hlen _ _ H); exact Hpc].
      destruct Hpc as (Hne & Hll & Hcl & Hv). split; [intros ->; inversion H; subst; congruence|]. split; [rewrite (Hlen _ _ H); exact Hll|]. split; [|exact Hv].
      apply Forall_forall. intros l Hin. apply elem_of_list_lookup in Hin as (i & Hi'). destruct (xs !! i) as [x|] eqn:Ex.
      + apply (HL l x). cbn [examples]. apply elem_of_list_lookup. exists i. apply lookup_zip_with_Some. exists l, (Train x). split; [reflexivity|]. split; [exact Hi'|]. rewrite list_lookup_fmap, Ex. reflexivity.
      + apply lookup_ge_None in Ex. apply lookup_lt_Some in Hi'. unfold len in Hll. lia. }
  assert (Hc' : configured (with_base w0 b') n) by (destruct Hc as (c1 & c2 & c3 & c4); split; [exact c1|]; split; [exact Hb'|]; split; assumption).
  assert (H0' : w_discriminators (with_base w0 b') = ∅) by exact H0.
  destruct (wrun_inv lhs w0 n cs H0 Hc Hp ltac:(lia)) as (w & d0 & E & Hi).
  destruct (wrun_inv lhs' (with_base w0 b') n cs' H0' Hc' Hp' ltac:(lia)) as (w' & d0' & E' & Hi').
  exists w, w'. split; [exact E|]. split; [exact E'|]. intros x x' Hx Hxx.
  assert (HS : sim w0 b' w w').
  { eapply run_sim; [exact Hm| |exact E|exact E']. exists (w_discriminators w0), (w_discriminators (with_base w0 b')). split; [destruct w0; reflexivity|]. split; [destruct w0; reflexivity|]. intros l. reflexivity. }
  destruct HS as (ds & ds' & Ew & Ew' & HS).
  assert (Hd : forall l, skel <$> (d0 !! l) = skel <$> (d0' !! l)).
  { intros l. specialize (HS l). destruct Hi as [_ Hi]. destruct Hi' as [_ Hi']. specialize (Hi l). specialize (Hi' l). unfold label_inv in *. rewrite Ew in Hi. rewrite Ew' in Hi'. cbn [w_discriminators with_discriminators] in *.
    destruct (d0 !! l) as [d|], (ds !! l) as [e|]; try contradiction; destruct (d0' !! l) as [d'|], (ds' !! l) as [e'|]; try contradiction; try discriminate; [|reflexivity].
    destruct Hi as (_ & _ & _ & Ha), Hi' as (_ & _ & _ & Ha'). apply after_skel in Ha, Ha'. cbn in *. congruence. }
  assert (Hin : forall l d, d0 !! l = Some d -> Forall (fun r => r_ignoreZero r = w_ignoreZero w0 /\ Forall (fun p => 0 <= p < n) (r_addresses r)) (d_rams d)).
  { intros l d Hd0. destruct Hi as [_ Hi]. specialize (Hi l). unfold label_inv in Hi. rewrite Hd0 in Hi. destruct (w_discriminators w !! l); [|contradiction]. destruct Hi as (_ & (dr & _ & Hbu) & (_ & Hes & Hw & _) & _). apply construct_iz in Hbu.
    apply Forall_and. split; [exact Hbu|]. unfold wired_inside in Hw. rewrite Hes in Hw. exact Hw. }
  destruct (candidates_inv w0 n d0 _ w x Hn Hi ltac:(lia) Hx) as (cand & Ec & Hdg & _). exists cand. split; [exact Ec|].
  destruct (candidates_inv (with_base w0 b') n d0' _ w' x' Hn Hi' ltac:(lia)) as (cand' & -> & Hdg' & _); [eapply plain_recoded; eassumption|]. f_equal.
  rewrite (recoded_owed f (w_base w0) b' n Hf (w_ignoreZero w0) d0 d0' _ _ x x' Hz ltac:(lia) He Hx Hxx Hin Hd) in Hdg'. eapply degrees_unique; [exact Hdg'|exact Hdg].
Qed.
