(** Lemmas for C151, C152: discriminators fed with renamed images, in lock step. *)
From Verif Require Import Prelude Bytes Utils BinInput Float32 Bleaching Ram Disc Wisard Cluster ClusWisard SpecDisc SpecWisard SpecClus SpecValues.
From Verif Require Import BytesProofs UtilsProofs TextProofs DiscCtorProofs CtorFacts RamProofs DiscProofs DiscFacts ClusOne.

Section sim.
Context (f : Z -> Z -> Z) (b : Z) (iz : bool) (Hf : renaming f b iz).
Notation ren := (renamed_image f b).

Lemma loop_cases addrs x x' : ren x x' -> forall i p i' p',
  (exists j j', getIndex_loop addrs b x i p = Ok j /\ getIndex_loop addrs b x' i' p' = Ok j' /\
     Forall (fun a => exists v, im_get x a = Ok v /\ 0 <= v < b) addrs /\ Forall (fun a => exists v, im_get x' a = Ok v /\ 0 <= v < b) addrs) \/
  (exists e, getIndex_loop addrs b x i p = Throw e /\ getIndex_loop addrs b x' i' p' = Throw e) \/
  (exists u, getIndex_loop addrs b x i p = UB u /\ getIndex_loop addrs b x' i' p' = UB u) \/
  (getIndex_loop addrs b x i p = Hang /\ getIndex_loop addrs b x' i' p' = Hang).
Proof using Hf.
  intros (_ & Hx). induction addrs as [|a addrs IH]; intros i p i' p'.
  - left. exists i, i'. cbn. auto.
  - cbn [getIndex_loop]. specialize (Hx a). destruct (im_get x a) as [v|e|u|] eqn:E.
    + destruct Hx as [Hv E']. rewrite E'. cbn [rbind]. pose proof (proj1 (Hf a) v Hv) as Hv'. unfold checkPos. destruct (Z.leb_spec b v); [lia|]. destruct (Z.leb_spec b (f a v)); [lia|]. cbn [rbind].
      destruct (IH (u64 (i + u64 v * p)) (u64 (p * u64 b)) (u64 (i' + u64 (f a v) * p')) (u64 (p' * u64 b))) as [(j & j' & E1 & E2 & F1 & F2)|[H1|[H1|H1]]]; [|right; left; exact H1|right; right; left; exact H1|right; right; right; exact H1].
      left. exists j, j'. rewrite E1, E2. split; [reflexivity|]. split; [reflexivity|]. split; constructor; eauto.
    + right. left. exists e. rewrite Hx. cbn. auto.
    + right. right. left. exists u. rewrite Hx. cbn. auto.
    + right. right. right. rewrite Hx. cbn. auto.
Qed.
Record ram_rel (r r' : ram) : Prop := RamRel {
  rr_addr : r_addresses r' = r_addresses r; rr_base : r_base r = b; rr_base' : r_base r' = b; rr_iz : r_ignoreZero r = iz; rr_iz' : r_ignoreZero r' = iz; rr_shape : ram_shape r;
  rr_pos : forall x x' i i', ren x x' -> getIndex r x = Ok i -> getIndex r' x' = Ok i' -> r_positions r' !! i' = r_positions r !! i }.
Lemma agree_ren addrs x x' y y' : Forall (fun a => exists v, im_get x a = Ok v /\ 0 <= v < b) addrs -> Forall (fun a => exists v, im_get y a = Ok v /\ 0 <= v < b) addrs -> ren x x' -> ren y y' ->
  agree addrs x' y' <-> agree addrs x y.
Proof using Hf.
  intros Hx Hy (_ & Rx) (_ & Ry). unfold agree. rewrite !Forall_forall. rewrite Forall_forall in Hx, Hy.
  split; intros H a Ha; specialize (H a Ha); specialize (Rx a); specialize (Ry a); cbv beta in *; destruct (Hx a Ha) as (u & Eu & Hu), (Hy a Ha) as (v & Ev & Hv); rewrite Eu in *; rewrite Ev in *;
    destruct Rx as [_ Rx], Ry as [_ Ry]; rewrite ?Rx, ?Ry in *; [|congruence].
  injection H as H. f_equal. exact (proj1 (proj2 (Hf a)) u v Hu Hv H).
Qed.
Lemma zero_ren addrs x x' : iz = true -> 0 < b -> Forall (fun a => exists v, im_get x a = Ok v /\ 0 <= v < b) addrs -> ren x x' -> all_zero addrs x' <-> all_zero addrs x.
Proof using Hf.
  intros Hz Hb Hx (_ & Rx). unfold all_zero. rewrite !Forall_forall. rewrite Forall_forall in Hx.
  split; intros H a Ha; specialize (H a Ha); specialize (Rx a); cbv beta in *; destruct (Hx a Ha) as (u & Eu & Hu); rewrite Eu in *; destruct Rx as [_ Rx]; rewrite ?Rx in *.
  - injection H as H. f_equal. apply (proj1 (proj2 (Hf a)) u 0 Hu); [lia|]. rewrite (proj2 (proj2 (Hf a)) Hz). exact H.
  - injection H as ->. rewrite (proj2 (proj2 (Hf a)) Hz). reflexivity.
Qed.

(** Reading a cell. *)
Lemma index_rel r r' x x' : ram_rel r r' -> ren x x' ->
  (exists i i', getIndex r x = Ok i /\ getIndex r' x' = Ok i' /\ valid_on r x /\ valid_on r' x') \/
  (exists e, getIndex r x = Throw e /\ getIndex r' x' = Throw e) \/ (exists u, getIndex r x = UB u /\ getIndex r' x' = UB u) \/ (getIndex r x = Hang /\ getIndex r' x' = Hang).
Proof using Hf.
  intros [Ea Eb Eb' _ _ _ _] Hx. unfold getIndex, valid_on. rewrite Ea, Eb, Eb'. exact (loop_cases (r_addresses r) x x' Hx 0 1 0 1).
Qed.
Lemma shape_rel r r' : ram_rel r r' -> ram_shape r'.
Proof. intros [Ea Eb Eb' _ _ [H1 H2] _]. unfold ram_shape. rewrite Ea, Eb', <- Eb. split; assumption. Qed.
(** Two images select the same cell before renaming iff they do after. *)
Lemma same_cell r r' x x' y y' i i' j j' : ram_rel r r' -> ren x x' -> ren y y' -> getIndex r x = Ok i -> getIndex r' x' = Ok i' -> getIndex r y = Ok j -> getIndex r' y' = Ok j' -> i = j <-> i' = j'.
Proof using Hf.
  intros HR Hx Hy Ex Ex' Ey Ey'. pose proof (shape_rel r r' HR) as Hs'. pose proof (rr_shape _ _ HR) as Hs.
  destruct (index_rel r r' x x' HR Hx) as [(a & a' & A1 & A2 & A3 & A4)|[(e & A & _)|[(u & A & _)|[A _]]]]; [|congruence..].
  destruct (index_rel r r' y y' HR Hy) as [(c & c' & C1 & C2 & C3 & C4)|[(e & C & _)|[(u & C & _)|[C _]]]]; [|congruence..].
  pose proof (index_agree r x y Hs A3 C3) as G. pose proof (index_agree r' x' y' Hs' A4 C4) as G'. rewrite Ex, Ey in G. rewrite Ex', Ey' in G'.
  unfold valid_on in A3, C3. rewrite (rr_base _ _ HR) in A3, C3. pose proof (agree_ren (r_addresses r) x x' y y' A3 C3 Hx Hy) as Q. rewrite (rr_addr _ _ HR) in G'.
  split; intros H; [apply (f_equal Ok) in H|apply (f_equal Ok) in H].
  - apply G, Q, G' in H. congruence.
  - apply G', Q, G in H. congruence.
Qed.
Lemma vote_rel r r' x x' : ram_rel r r' -> ren x x' -> getVote r' x' = getVote r x.
Proof using Hf.
  intros HR Hx. unfold getVote. destruct (index_rel r r' x x' HR Hx) as [(i & i' & E & E' & V & V')|[(e & E & E')|[(u & E & E')|[E E']]]]; rewrite E, E'; [|reflexivity..]. cbn [rbind].
  rewrite (rr_pos _ _ HR x x' i i' Hx E E'), (rr_iz _ _ HR), (rr_iz' _ _ HR). destruct (iz) eqn:Hiz; [|reflexivity]. cbn [andb].
  assert ((i' =? 0) = (i =? 0)) as ->; [|reflexivity].
  pose proof (index_zero r x (rr_shape _ _ HR) V) as G. pose proof (index_zero r' x' (shape_rel r r' HR) V') as G'. rewrite E in G. rewrite E' in G'. rewrite (rr_addr _ _ HR) in G'.
  unfold valid_on in V. rewrite (rr_base _ _ HR) in V. pose proof (rr_shape _ _ HR) as [Hb _]. rewrite (rr_base _ _ HR) in Hb.
  assert (Q : all_zero (r_addresses r) x' <-> all_zero (r_addresses r) x) by (rewrite <- Hiz in *; apply zero_ren; [exact Hiz|lia|exact V|exact Hx]).
  destruct (Z.eqb_spec i 0) as [->|Hi], (Z.eqb_spec i' 0) as [->|Hi']; try reflexivity; exfalso.
  - apply Hi'. assert (H0 : all_zero (r_addresses r) x) by (apply G; reflexivity). apply Q, G' in H0. congruence.
  - apply Hi. assert (H0 : all_zero (r_addresses r) x') by (apply G'; reflexivity). apply Q, G in H0. congruence.
Qed.
Lemma insert_rel r r' y y' j j' v : ram_rel r r' -> ren y y' -> getIndex r y = Ok j -> getIndex r' y' = Ok j' ->
  ram_rel (with_positions r (<[j := v]> (r_positions r))) (with_positions r' (<[j' := v]> (r_positions r'))).
Proof using Hf.
  intros HR Hy Ey Ey'. pose proof HR as [Ea Eb Eb' Ez Ez' Es Ep]. constructor; try assumption. intros x x' i i' Hx Ex Ex'.
  change (getIndex r x = Ok i) in Ex. change (getIndex r' x' = Ok i') in Ex'. cbn [with_positions r_positions]. pose proof (same_cell r r' x x' y y' i i' j j' HR Hx Hy Ex Ex' Ey Ey') as Q.
  destruct (decide (j = i)) as [->|Hn].
  - assert (j' = i') as -> by (symmetry; apply Q; reflexivity). rewrite !lookup_insert. reflexivity.
  - rewrite !lookup_insert_ne; [eapply Ep; eassumption|exact Hn|]. intros ->. apply Hn. symmetry. apply Q. reflexivity.
Qed.
Definition eff_rel {S A} (R : S -> S -> Prop) (p p' : eff S A) : Prop := fst p' = fst p /\ R (snd p) (snd p').
Lemma eff_bind {S A B} (R : S -> S -> Prop) (p p' : eff S A) (k k' : A -> S -> eff S B) : eff_rel R p p' -> (forall a s s', R s s' -> eff_rel R (k a s) (k' a s')) -> eff_rel R (ebind p k) (ebind p' k').
Proof. destruct p as [o s], p' as [o' s']. intros [E HR] Hk. cbn in E, HR. subst o'. destruct o; cbn [ebind]; [apply Hk, HR|split; [reflexivity|exact HR]..]. Qed.
Lemma eff_for {S X} (R : S -> S -> Prop) (Q : X -> X -> Prop) (g g' : S -> X -> eff S unit) l l' : (forall s s' x x', R s s' -> Q x x' -> eff_rel R (g s x) (g' s' x')) -> Forall2 Q l l' ->
  forall s s', R s s' -> eff_rel R (efor g l s) (efor g' l' s').
Proof. intros Hg. induction 1 as [|x x' l l' Hx _ IH]; intros s s' HR; cbn [efor]; [split; [reflexivity|exact HR]|]. apply eff_bind; [apply Hg; assumption|]. intros _ t t' HT. apply IH, HT. Qed.

Lemma outcomes_rel {S C} (R : S -> S -> Prop) (Q : C -> C -> Prop) (g : S -> C -> eff S unit) l l' : (forall s s' x x', R s s' -> Q x x' -> eff_rel R (g s x) (g s' x')) -> Forall2 Q l l' ->
  forall s s', R s s' -> fst (outcomes g s' l') = fst (outcomes g s l) /\ R (snd (outcomes g s l)) (snd (outcomes g s' l')).
Proof.
  intros Hg. induction 1 as [|x x' l l' Hx _ IH]; intros s s' HR; cbn [outcomes]; [split; [reflexivity|exact HR]|]. specialize (Hg s s' x x' HR Hx). destruct (g s x) as [o t], (g s' x') as [o' t']. destruct Hg as [E HT]. cbn in E, HT. subst o'.
  destruct o as [a|e|u|]; [| |split; [reflexivity|exact HT]..]; specialize (IH t t' HT); destruct (outcomes g t l) as [os q], (outcomes g t' l') as [os' q']; cbn in IH |- *; destruct IH as [-> IH]; split; [reflexivity|exact IH|reflexivity|exact IH].
Qed.

Lemma ram_train_rel r r' x x' : ram_rel r r' -> ren x x' -> eff_rel ram_rel (ram_train r x) (ram_train r' x').
Proof using Hf.
  intros HR Hx. unfold ram_train. destruct (index_rel r r' x x' HR Hx) as [(i & i' & E & E' & _ & _)|[(e & E & E')|[(u & E & E')|[E E']]]]; rewrite E, E'; [|split; [reflexivity|exact HR]..].
  rewrite (rr_pos _ _ HR x x' i i' Hx E E'). destruct (r_positions r !! i) as [v|].
  - destruct (int_of (v + 1)) as [v'| | |]; [|split; [reflexivity|exact HR]..]. split; [reflexivity|]. cbn [snd]. exact (insert_rel r r' x x' i i' v' HR Hx E E').
  - split; [reflexivity|]. cbn [snd]. exact (insert_rel r r' x x' i i' 1 HR Hx E E').
Qed.
Lemma ram_untrain_rel r r' x x' : ram_rel r r' -> ren x x' -> eff_rel ram_rel (ram_untrain r x) (ram_untrain r' x').
Proof using Hf.
  intros HR Hx. unfold ram_untrain. destruct (index_rel r r' x x' HR Hx) as [(i & i' & E & E' & _ & _)|[(e & E & E')|[(u & E & E')|[E E']]]]; rewrite E, E'; [|split; [reflexivity|exact HR]..].
  rewrite (rr_pos _ _ HR x x' i i' Hx E E'). destruct (r_positions r !! i) as [v|]; [|split; [reflexivity|exact HR]].
  destruct (int_of (v - 1)) as [v'| | |]; [|split; [reflexivity|exact HR]..]. split; [reflexivity|]. cbn [snd]. exact (insert_rel r r' x x' i i' v' HR Hx E E').
Qed.
Record disc_rel (d d' : disc) : Prop := DiscRel { dd_entry : d_entrySize d' = d_entrySize d; dd_count : d_count d' = d_count d; dd_rams : Forall2 ram_rel (d_rams d) (d_rams d') }.
Lemma update_rel (g g' : ram -> eff ram unit) rs rs' : (forall r r', ram_rel r r' -> eff_rel ram_rel (g r) (g' r')) -> Forall2 ram_rel rs rs' -> eff_rel (Forall2 ram_rel) (rams_update g rs) (rams_update g' rs').
Proof.
  intros Hg. induction 1 as [|r r' rs rs' Hr Hrs IH]; cbn [rams_update]; [split; [reflexivity|constructor]|]. specialize (Hg r r' Hr).
  destruct (g r) as [o q], (g' r') as [o' q']. destruct Hg as [E HR]. cbn in E, HR. subst o'. destruct o as [[]| | |]; [|split; [reflexivity|]; cbn; constructor; assumption..].
  destruct (rams_update g rs) as [o qs], (rams_update g' rs') as [o' qs']. destruct IH as [E HRs]. cbn in E, HRs. subst o'. split; [reflexivity|]. cbn. constructor; assumption.
Qed.
Lemma disc_train_rel d d' x x' : disc_rel d d' -> ren x x' -> eff_rel disc_rel (disc_train d x) (disc_train d' x').
Proof using Hf.
  intros HD Hx. pose proof HD as [E1 E2 HR]. unfold disc_train. rewrite E1, E2, (proj1 Hx). destruct (checkEntrySize _ _); [|split; [reflexivity|exact HD]..]. destruct (int_of _) as [c| | |]; [|split; [reflexivity|exact HD]..].
  pose proof (update_rel (fun r => ram_train r x) (fun r => ram_train r x') _ _ (fun r r' H => ram_train_rel r r' x x' H Hx) HR) as H.
  destruct (rams_update _ (d_rams d)) as [o rs], (rams_update _ (d_rams d')) as [o' rs']. destruct H as [E HRs]. cbn in E, HRs. subst o'. split; [reflexivity|]. cbn. constructor; [reflexivity|reflexivity|exact HRs].
Qed.
Lemma disc_untrain_rel d d' x x' : disc_rel d d' -> ren x x' -> eff_rel disc_rel (disc_untrain d x) (disc_untrain d' x').
Proof using Hf.
  intros HD Hx. pose proof HD as [E1 E2 HR]. unfold disc_untrain. rewrite E1, E2, (proj1 Hx). destruct (checkEntrySize _ _); [|split; [reflexivity|exact HD]..]. destruct (int_of _) as [c| | |]; [|split; [reflexivity|exact HD]..].
  pose proof (update_rel (fun r => ram_untrain r x) (fun r => ram_untrain r x') _ _ (fun r r' H => ram_untrain_rel r r' x x' H Hx) HR) as H.
  destruct (rams_update _ (d_rams d)) as [o rs], (rams_update _ (d_rams d')) as [o' rs']. destruct H as [E HRs]. cbn in E, HRs. subst o'. split; [reflexivity|]. cbn. constructor; [reflexivity|reflexivity|exact HRs].
Qed.
Lemma disc_classify_rel d d' x x' : disc_rel d d' -> ren x x' -> disc_classify d' x' = disc_classify d x.
Proof using Hf.
  intros [E1 _ HR] Hx. unfold disc_classify. rewrite E1, (proj1 Hx). destruct (checkEntrySize _ _); [|reflexivity..]. cbn [rbind].
  induction HR as [|r r' rs rs' Hr _ IH]; [reflexivity|]. cbn [rmapM]. rewrite (vote_rel r r' x x' Hr Hx), IH. reflexivity.
Qed.
Lemma fresh_rel d : fresh d -> Forall (fun r => r_base r = b /\ r_ignoreZero r = iz) (d_rams d) -> disc_rel d d.
Proof.
  intros [_ Hr] Hp. constructor; [reflexivity|reflexivity|]. induction Hr as [|r rs [Hs He] _ IH]; [constructor|]. apply Forall_cons in Hp as [[Eb Ez] Hp]. constructor; [|apply IH, Hp].
  constructor; try assumption; [reflexivity|]. intros x x' i i' _ _ _. rewrite He, !lookup_empty. reflexivity.
Qed.
End sim.
