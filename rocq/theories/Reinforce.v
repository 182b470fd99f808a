(** Lemmas for C153: raising the votes of the winner leaves it the winner. *)
From Verif Require Import Prelude Bytes Utils BinInput Bleaching Ram Disc Wisard SpecDisc SpecBleach SpecWisard SpecReinforce.
From Verif Require Import DiscProofs DiscFacts BleachProofs WisardFacts.

(** ** Counts *)
(** The counts m' are those of m but for l, which has at least as many. *)
Definition raised (l : str) (m m' : gmap str Z) : Prop :=
  (forall k, k <> l -> m' !! k = m !! k) /\ exists a a', m !! l = Some a /\ m' !! l = Some a' /\ 0 <= a <= a'.
Lemma winner_up l m m' : raised l m m' -> winner m l -> winner m' l.
Proof.
  intros (Ho & a & a' & Ea & Ea' & Ha) (v & Ev & Hw). assert (v = a) as -> by congruence. exists a'. split; [exact Ea'|]. intros k u Hk.
  destruct (decide (k = l)) as [->|Hn]; [right; split; [congruence|apply str_le_refl]|]. rewrite (Ho k Hn) in Hk. destruct (Hw k u Hk) as [H|[-> H]]; [left; lia|].
  destruct (decide (a = a')) as [->|]; [right; auto|left; lia].
Qed.
Lemma rise c l m m' : raised l m m' -> ambiguous c m -> ~ bounded_by m 1 -> settled c m' -> winner m' l.
Proof.
  intros (Ho & a & a' & Ea & Ea' & Ha) (M & k & v & (HM0 & HM & HMe) & Hk & Hc & Hbig) Hnb Hs.
  assert (HM2 : 1 < M). { destruct (decide (1 < M)) as [H|H]; [exact H|]. exfalso. apply Hnb. intros q u Hq. specialize (HM q u Hq). lia. }
  destruct Hbig as [->|(k0 & Hk0 & Hlt)]; [lia|].
  destruct (decide (a' <= M)) as [Hle|Hgt].
  - exfalso. assert (Hk0' : m' !! k0 = Some M). { destruct (decide (k0 = l)) as [->|Hn]; [|rewrite (Ho _ Hn); exact Hk0]. rewrite Ea'. f_equal. rewrite Ea in Hk0. injection Hk0 as ->. lia. }
    destruct Hs as [Hs|Hs]; [|specialize (Hs k0 M Hk0'); lia]. apply Hs.
    assert (HH : highest m' M). { split; [exact HM0|]. split; [|right; exists k0; exact Hk0']. intros q u Hq. destruct (decide (q = l)) as [->|Hn]; [rewrite Ea' in Hq; injection Hq as <-; exact Hle|]. rewrite (Ho _ Hn) in Hq. exact (HM q u Hq). }
    destruct (decide (k = l)) as [->|Hn].
    + exists M, l, a'. split; [exact HH|]. split; [exact Ea'|]. rewrite Ea in Hk. injection Hk as <-. split; [lia|]. right. exists k0. auto.
    + exists M, k, v. split; [exact HH|]. rewrite (Ho _ Hn). split; [exact Hk|]. split; [exact Hc|]. right. exists k0. auto.
  - exists a'. split; [exact Ea'|]. intros q u Hq. destruct (decide (q = l)) as [->|Hn]; [right; split; [congruence|apply str_le_refl]|]. rewrite (Ho _ Hn) in Hq. specialize (HM q u Hq). left. lia.
Qed.
Lemma stay c l m m' : raised l m m' -> winner m l -> settled c m -> (c <= 2 \/ exists v, m !! l = Some v /\ 1 < v) -> settled c m'.
Proof.
  intros (Ho & a & a' & Ea & Ea' & Ha) (v & Ev & Hw) Hs Hc. assert (v = a) as -> by congruence.
  assert (Hle : forall q u, m' !! q = Some u -> u <= a'). { intros q u Hq. destruct (decide (q = l)) as [->|Hn]; [rewrite Ea' in Hq; injection Hq as <-; lia|]. rewrite (Ho _ Hn) in Hq. destruct (Hw q u Hq) as [?|[? _]]; lia. }
  destruct (decide (a' <= 1)) as [H1|H1]; [right; intros q u Hq; specialize (Hle q u Hq); lia|]. left. intros (M & k & v & (HM0 & HM & HMe) & Hk & Hlt & Hbig).
  assert (M = a') as ->. { pose proof (HM l a' Ea'). destruct HMe as [->|[q Hq]]; [lia|]. specialize (Hle q M Hq). lia. }
  destruct Hbig as [H|(k0 & Hk0 & Hk0k)]; [lia|].
  destruct (decide (a = a')) as [<-|Hne].
  - destruct Hs as [Hs|Hs]; [|specialize (Hs l a Ea); lia]. apply Hs. exists a, k, v.
    assert (Hsame : forall q, m' !! q = m !! q). { intros q. destruct (decide (q = l)) as [->|Hn]; [congruence|exact (Ho q Hn)]. } rewrite Hsame in Hk, Hk0.
    split; [|split; [exact Hk|split; [exact Hlt|right; exists k0; auto]]]. split; [exact HM0|]. split; [intros q u Hq; rewrite <- Hsame in Hq; exact (HM q u Hq)|right; exists l; exact Ea].
  - assert (k0 = l) as ->. { destruct (decide (k0 = l)) as [->|Hn]; [reflexivity|]. rewrite (Ho _ Hn) in Hk0. destruct (Hw k0 a' Hk0) as [?|[? _]]; lia. }
    assert (Hkl : k <> l) by (intros ->; exact (str_lt_irrefl l Hk0k)). rewrite (Ho _ Hkl) in Hk. destruct (Hw k v Hk) as [Hva|[_ Hle']]; [|apply str_lt_nle in Hk0k; contradiction].
    destruct Hc as [Hc|(u & Hu & Hu1)]; [lia|]. assert (u = a) as -> by congruence. destruct Hs as [Hs|Hs]; [|specialize (Hs l a Ea); lia]. apply Hs. exists a, k, v.
    split; [|split; [exact Hk|split; [lia|right; exists l; auto]]]. split; [lia|]. split; [|right; exists l; exact Ea]. intros q w Hq. destruct (Hw q w Hq) as [?|[? _]]; lia.
Qed.

(** ** Votes *)
Definition more_votes (l : str) (m m' : gmap str (list Z)) : Prop :=
  (forall k, k <> l -> m' !! k = m !! k) /\ exists vs vs', m !! l = Some vs /\ m' !! l = Some vs' /\ Forall2 Z.le vs vs'.
Lemma tally_up b vs vs' : Forall2 Z.le vs vs' -> tally b vs <= tally b vs'.
Proof. unfold tally. induction 1 as [|v v' vs vs' H _ IH]; [reflexivity|]. rewrite !count_if_cons. destruct (Z.leb_spec b v), (Z.leb_spec b v'); lia. Qed.
Lemma tallies_up l m m' b : more_votes l m m' -> raised l (tallies b m) (tallies b m').
Proof.
  intros (Ho & vs & vs' & E & E' & H). unfold tallies. split; [intros k Hk; rewrite !lookup_fmap, (Ho k Hk); reflexivity|]. exists (tally b vs), (tally b vs'). rewrite !lookup_fmap, E, E'.
  split; [reflexivity|]. split; [reflexivity|]. split; [apply tally_nonneg|apply tally_up, H].
Qed.
Lemma bleached_up c l m m' out out' : more_votes l m m' -> bleached c m out -> bleached c m' out' -> (c <= 2 \/ exists v, out !! l = Some v /\ 1 < v) -> winner out l -> winner out' l.
Proof.
  intros HM (b & Hb & -> & Hs & Hp) (b' & Hb' & -> & Hs' & Hp') Hc Hw. destruct (Z.lt_trichotomy b' b) as [Hlt|[->|Hgt]].
  - pose proof (tallies_up l m m' b' HM) as HR. specialize (Hp b' ltac:(lia)).
    destruct (isThereAmbiguity_spec (tallies b' m) c) as (am & M & E & HH & Ha).
    assert (Hab : ambiguous c (tallies b' m)). { apply Ha. destruct am; [reflexivity|]. exfalso. apply Hp. left. intros H. apply Ha in H. discriminate. }
    eapply rise; [exact HR|exact Hab| |exact Hs']. intros H. apply Hp. right. exact H.
  - eapply winner_up; [apply tallies_up; exact HM|exact Hw].
  - exfalso. apply (Hp' b); [lia|]. eapply stay; [apply tallies_up; exact HM|exact Hw|exact Hs|exact Hc].
Qed.
(** Whatever the votes: when the search returns, it returns what the rule says. *)
Lemma loop_bleached m c out : forall fuel b, 1 <= b -> (forall b', 1 <= b' < b -> ~ settled c (tallies b' m)) -> bleach_loop fuel m true c b = Ok out -> bleached c m out.
Proof.
  induction fuel as [|fuel IH]; intros b Hb Hprev H; [discriminate|]. cbn [bleach_loop negb] in H. rewrite counts_at_tallies in H. unfold int_of in H. destruct (in_int (b + 1)); [|discriminate]. cbn [rbind] in H.
  destruct (isThereAmbiguity (tallies b m) c) as [a M] eqn:E. cbn [fst snd] in H. pose proof (settled_test _ _ _ _ E) as Hs. destruct (a && (1 <? M)) eqn:E2.
  - assert (Hn : ~ settled c (tallies b m)) by (intros H'; apply Hs in H'; discriminate). eapply IH; [|  |exact H]; [lia|]. intros b' Hb'. destruct (decide (b' = b)) as [->|]; [exact Hn|]. apply Hprev. lia.
  - injection H as <-. exists b. split; [exact Hb|]. split; [reflexivity|]. split; [apply Hs; reflexivity|exact Hprev].
Qed.
Lemma make_bleached m s c out : bleaching_make m true s c = Ok out -> bleached c m out.
Proof.
  intros H. assert (E : bleach_loop (bleach_fuel m) m true c 1 = Ok out) by (unfold bleaching_make, makeWithConfidence, makeConfidenceless in H; destruct s; exact H). eapply loop_bleached; [|  |exact E]; [lia|]. intros b' Hb'. lia.
Qed.

(** ** Models *)
Record ram_up (r r' : ram) : Prop := RamUp { ru_addr : r_addresses r' = r_addresses r; ru_base : r_base r' = r_base r; ru_iz : r_ignoreZero r' = r_ignoreZero r;
  ru_pos : forall i, default 0 (r_positions r !! i) <= default 0 (r_positions r' !! i) }.
Lemma ram_up_refl r : ram_up r r. Proof. constructor; reflexivity. Qed.
Lemma ram_up_trans r s t : ram_up r s -> ram_up s t -> ram_up r t.
Proof. intros [A1 B1 C1 D1] [A2 B2 C2 D2]. constructor; try congruence. intros i. etransitivity; [apply D1|apply D2]. Qed.
Lemma ram_train_up r x : ram_up r (snd (ram_train r x)).
Proof.
  unfold ram_train. destruct (getIndex r x) as [j| | |]; try apply ram_up_refl.
  assert (G : forall v, default 0 (r_positions r !! j) <= v -> ram_up r (with_positions r (<[j := v]> (r_positions r)))).
  { intros v Hv. constructor; try reflexivity. intros i. cbn [with_positions r_positions]. destruct (decide (j = i)) as [<-|Hn]; [rewrite lookup_insert; exact Hv|rewrite lookup_insert_ne by exact Hn; lia]. }
  destruct (r_positions r !! j) as [v|] eqn:E; cbn [default] in G.
  - unfold int_of. destruct (in_int (v + 1)); [|apply ram_up_refl]. cbn [snd]. apply G. cbn. lia.
  - cbn [snd]. apply G. cbn. lia.
Qed.
Lemma ram_untrain_down r x : ram_up (snd (ram_untrain r x)) r.
Proof.
  unfold ram_untrain. destruct (getIndex r x) as [j| | |]; try apply ram_up_refl. destruct (r_positions r !! j) as [v|] eqn:E; [|apply ram_up_refl].
  unfold int_of. destruct (in_int (v - 1)); [|apply ram_up_refl]. cbn [snd]. constructor; try reflexivity. intros i. cbn [with_positions r_positions].
  destruct (decide (j = i)) as [<-|Hn]; [rewrite lookup_insert, E; cbn; lia|rewrite lookup_insert_ne by exact Hn; lia].
Qed.
Lemma vote_up r r' x v : ram_up r r' -> getVote r x = Ok v -> exists v', getVote r' x = Ok v' /\ v <= v'.
Proof.
  intros [Ea Eb Ez Hp]. unfold getVote, getIndex. rewrite Ea, Eb, Ez. destruct (getIndex_loop _ _ _ _ _) as [i| | |]; try discriminate. cbn [rbind]. destruct (_ && _); [intros [= <-]; exists 0; split; [reflexivity|lia]|].
  specialize (Hp i). destruct (r_positions r !! i) as [u|], (r_positions r' !! i) as [u'|]; cbn in Hp; intros [= <-]; eexists; (split; [reflexivity|lia]).
Qed.
Record disc_up (d d' : disc) : Prop := DiscUp { du_entry : d_entrySize d' = d_entrySize d; du_rams : Forall2 ram_up (d_rams d) (d_rams d') }.
Lemma rams_up_refl rs : Forall2 ram_up rs rs. Proof. induction rs; constructor; [apply ram_up_refl|assumption]. Qed.
Lemma rams_up_trans rs ss : Forall2 ram_up rs ss -> forall ts, Forall2 ram_up ss ts -> Forall2 ram_up rs ts.
Proof. induction 1 as [|r s rs ss H _ IH]; intros ts H2; inversion H2; subst; constructor; [eapply ram_up_trans; eassumption|auto]. Qed.
Lemma disc_up_refl d : disc_up d d. Proof. constructor; [reflexivity|apply rams_up_refl]. Qed.
Lemma disc_up_trans d e g : disc_up d e -> disc_up e g -> disc_up d g.
Proof. intros [A1 B1] [A2 B2]. constructor; [congruence|eapply rams_up_trans; eassumption]. Qed.
Lemma update_up f rs : (forall r, ram_up r (snd (f r))) -> Forall2 ram_up rs (snd (rams_update f rs)).
Proof.
  intros Hf. induction rs as [|r rs IH]; [constructor|]. cbn [rams_update]. specialize (Hf r). destruct (f r) as [o r']. cbn in Hf. destruct o as [[]| | |]; try (constructor; [exact Hf|apply rams_up_refl]).
  destruct (rams_update f rs) as [o rs']. constructor; assumption.
Qed.
Lemma update_down f rs : (forall r, ram_up (snd (f r)) r) -> Forall2 ram_up (snd (rams_update f rs)) rs.
Proof.
  intros Hf. induction rs as [|r rs IH]; [constructor|]. cbn [rams_update]. specialize (Hf r). destruct (f r) as [o r']. cbn in Hf. destruct o as [[]| | |]; try (constructor; [exact Hf|apply rams_up_refl]).
  destruct (rams_update f rs) as [o rs']. constructor; assumption.
Qed.
Lemma disc_train_up d x : disc_up d (snd (disc_train d x)).
Proof.
  unfold disc_train. destruct (checkEntrySize _ _); try apply disc_up_refl. destruct (int_of _); try apply disc_up_refl.
  pose proof (update_up (fun r => ram_train r x) (d_rams d) (fun r => ram_train_up r x)) as H. destruct (rams_update _ _) as [o rs]. constructor; [reflexivity|exact H].
Qed.
Lemma disc_untrain_down d x : disc_up (snd (disc_untrain d x)) d.
Proof.
  unfold disc_untrain. destruct (checkEntrySize _ _); try apply disc_up_refl. destruct (int_of _); try apply disc_up_refl.
  pose proof (update_down (fun r => ram_untrain r x) (d_rams d) (fun r => ram_untrain_down r x)) as H. destruct (rams_update _ _) as [o rs]. constructor; [reflexivity|exact H].
Qed.
Lemma disc_votes_up d d' x vs : disc_up d d' -> disc_classify d x = Ok vs -> exists vs', disc_classify d' x = Ok vs' /\ Forall2 Z.le vs vs'.
Proof.
  intros [Ee HR]. unfold disc_classify. rewrite Ee. destruct (checkEntrySize _ _); try discriminate. cbn [rbind]. revert vs. induction HR as [|r r' rs rs' H _ IH]; intros vs; cbn [rmapM]; [intros [= <-]; exists []; split; [reflexivity|constructor]|].
  destruct (getVote r x) as [v| | |] eqn:E; try discriminate. cbn [rbind]. destruct (rmapM (fun r => getVote r x) rs) as [us| | |]; try discriminate. cbn [rbind]. intros [= <-].
  destruct (vote_up r r' x v H E) as (v' & E' & Hv). destruct (IH us eq_refl) as (us' & Eu & Hu). rewrite E'. cbn [rbind]. rewrite Eu. cbn [rbind]. exists (v' :: us'). split; [reflexivity|constructor; assumption].
Qed.
(** w' is w with more in label l, which w knows. *)
Record wis_up (l : str) (w w' : wisard) : Prop := WisUp {
  wu_opts : with_discriminators w' ∅ = with_discriminators w ∅;
  wu_other : forall k, k <> l -> w_discriminators w' !! k = w_discriminators w !! k;
  wu_label : exists d d', w_discriminators w !! l = Some d /\ w_discriminators w' !! l = Some d' /\ disc_up d d' }.
Lemma wis_up_refl l w : is_Some (w_discriminators w !! l) -> wis_up l w w.
Proof. intros [d E]. constructor; [reflexivity|reflexivity|]. exists d, d. split; [exact E|]. split; [exact E|apply disc_up_refl]. Qed.
Lemma wis_up_trans l w v u : wis_up l w v -> wis_up l v u -> wis_up l w u.
Proof.
  intros [A1 B1 (d & d' & E1 & E2 & H1)] [A2 B2 (e & e' & E3 & E4 & H2)]. constructor; [congruence|intros k Hk; rewrite (B2 k Hk); apply B1, Hk|]. rewrite E2 in E3. injection E3 as <-. exists d, e'. split; [exact E1|]. split; [exact E4|eapply disc_up_trans; eassumption].
Qed.
Lemma wis_up_known l w v : wis_up l w v -> is_Some (w_discriminators v !! l).
Proof. intros [_ _ (d & d' & _ & E & _)]. eauto. Qed.
Lemma wis_up_known' l w v : wis_up l w v -> is_Some (w_discriminators w !! l).
Proof. intros [_ _ (d & d' & E & _ & _)]. eauto. Qed.
Lemma at_label_up f w l : (forall d, disc_up d (snd (f d))) -> is_Some (w_discriminators w !! l) -> wis_up l w (snd (at_label f w l)).
Proof.
  intros Hf [d E]. unfold at_label. rewrite E. specialize (Hf d). destruct (f d) as [o d']. cbn in Hf |- *. constructor; [reflexivity| |]; cbn [with_discriminators w_discriminators].
  - intros k Hk. apply lookup_insert_ne. congruence.
  - exists d, d'. rewrite lookup_insert. auto.
Qed.
Lemma at_label_down f w l : (forall d, disc_up (snd (f d)) d) -> is_Some (w_discriminators w !! l) -> wis_up l (snd (at_label f w l)) w.
Proof.
  intros Hf [d E]. unfold at_label. rewrite E. specialize (Hf d). destruct (f d) as [o d']. cbn in Hf |- *. constructor; [reflexivity| |]; cbn [with_discriminators w_discriminators].
  - intros k Hk. symmetry. apply lookup_insert_ne. congruence.
  - exists d', d. rewrite lookup_insert. auto.
Qed.
Lemma train1_up lhs env w x l : is_Some (w_discriminators w !! l) -> wis_up l w (snd (wisard_train1 lhs env w x l)).
Proof. intros H. pose proof H as [d E]. unfold wisard_train1. rewrite E. apply at_label_up; [intros e; apply disc_train_up|exact H]. Qed.
Lemma bind_step {S A B} (R : S -> S -> Prop) (s : S) (p : eff S A) (k : A -> S -> eff S B) : R s (snd p) -> (forall a t, R s t -> R s (snd (k a t))) -> R s (snd (ebind p k)).
Proof. destruct p as [o t]. cbn. intros H Hk. destruct o; [apply Hk, H|exact H..]. Qed.
Lemma train_up lhs env l xs ls w : Forall (fun k => k = l) ls -> is_Some (w_discriminators w !! l) -> wis_up l w (snd (wisard_train lhs env w xs ls)).
Proof.
  intros HL Hk. assert (G : forall xs ls v, Forall (fun k => k = l) ls -> wis_up l w v -> wis_up l w (snd (wisard_train_loop lhs env v xs ls))).
  { clear HL xs ls. induction xs as [|x xs IH]; intros ls v HL HV; [destruct ls; exact HV|]. destruct ls as [|k ls]; [exact HV|]. apply Forall_cons in HL as [-> HL]. cbn [wisard_train_loop].
    apply (bind_step (wis_up l)); [eapply wis_up_trans; [exact HV|]; apply train1_up; eapply wis_up_known; exact HV|]. intros _ t HT. apply IH; assumption. }
  unfold wisard_train. destruct xs as [|x xs]; [apply wis_up_refl, Hk|]. destruct (calculateNumberOfRams _ _ _); try (apply wis_up_refl, Hk). destruct (checkConfidence _ _); try (apply wis_up_refl, Hk). destruct (checkInputSizes _ _); try (apply wis_up_refl, Hk).
  apply G; [exact HL|apply wis_up_refl, Hk].
Qed.
Lemma leave_down w x l : is_Some (w_discriminators w !! l) -> wis_up l (snd (leaveOneOut w x l)) w.
Proof. intros H. pose proof H as [d E]. unfold leaveOneOut. rewrite E. apply at_label_down; [intros e; apply disc_untrain_down|exact H]. Qed.
Lemma more_down l xs ls w : Forall (fun k => k = l) ls -> is_Some (w_discriminators w !! l) -> wis_up l (snd (leaveMoreOut w xs ls)) w.
Proof.
  intros HL Hk. assert (G : forall xs ls v, Forall (fun k => k = l) ls -> wis_up l v w -> wis_up l (snd (leaveMoreOut_loop v xs ls)) w).
  { clear HL xs ls. induction xs as [|x xs IH]; intros ls v HL HV; [destruct ls; exact HV|]. destruct ls as [|k ls]; [exact HV|]. apply Forall_cons in HL as [-> HL]. cbn [leaveMoreOut_loop].
    apply (bind_step (fun a b => wis_up l b a)); [eapply wis_up_trans; [|exact HV]; apply leave_down; eapply wis_up_known'; exact HV|]. intros _ t HT. apply IH; assumption. }
  unfold leaveMoreOut. destruct (checkInputSizes _ _); try (apply wis_up_refl, Hk). apply G; [exact HL|apply wis_up_refl, Hk].
Qed.
Lemma run_up lhs l cs w : Forall (teaches l) cs -> is_Some (w_discriminators w !! l) -> wis_up l w (snd (wrun lhs w cs)).
Proof.
  intros HC Hk. unfold wrun. assert (G : forall v, wis_up l w v -> wis_up l w (snd (efor (wcall_run lhs) cs v))); [|apply G, wis_up_refl, Hk].
  induction HC as [|c cs Hc _ IH]; intros v HV; [exact HV|]. cbn [efor]. apply (bind_step (wis_up l)); [|intros _ t HT; apply IH, HT]. eapply wis_up_trans; [exact HV|]. destruct c as [env xs ls| |]; [|contradiction Hc..]. apply train_up; [exact Hc|eapply wis_up_known; exact HV].
Qed.
Lemma run_down lhs l cs w : Forall (forgets l) cs -> is_Some (w_discriminators w !! l) -> wis_up l (snd (wrun lhs w cs)) w.
Proof.
  intros HC Hk. unfold wrun. assert (G : forall v, wis_up l v w -> wis_up l (snd (efor (wcall_run lhs) cs v)) w); [|apply G, wis_up_refl, Hk].
  induction HC as [|c cs Hc _ IH]; intros v HV; [exact HV|]. cbn [efor]. apply (bind_step (fun a b => wis_up l b a)); [|intros _ t HT; apply IH, HT]. eapply wis_up_trans; [|exact HV].
  destruct c as [|x k|xs ls]; [contradiction Hc|cbn in Hc; subst k; apply leave_down|apply more_down; [exact Hc|]]; eapply wis_up_known'; exact HV.
Qed.
(** ** Answers *)
Lemma votes_more l w w' x m m' : wis_up l w w' -> all_votes (w_discriminators w) x = Ok m -> all_votes (w_discriminators w') x = Ok m' -> more_votes l m m'.
Proof.
  intros [_ Ho (d & d' & E & E' & HU)] Hm Hm'. pose proof (keyed_inv (fun d => disc_classify d x) _ _ Hm) as K. pose proof (keyed_inv (fun d => disc_classify d x) _ _ Hm') as K'. split.
  - intros k Hk. specialize (K k). specialize (K' k). rewrite (Ho k Hk) in K'. destruct (w_discriminators w !! k); [|congruence]. destruct K as (b & E1 & ->), K' as (b' & E2 & ->). congruence.
  - specialize (K l). specialize (K' l). rewrite E in K. rewrite E' in K'. destruct K as (b & E1 & Eb), K' as (b' & E2 & Eb'). destruct (disc_votes_up d d' x b HU E1) as (b'' & E3 & HF). assert (b'' = b') as -> by congruence. eauto 6.
Qed.
Lemma answer_up l w w' x k : wis_up l w w' -> firm w x l -> wisard_classify w [x] = Ok [l] -> wisard_classify w' [x] = Ok [k] -> k = l.
Proof.
  intros HU Hf H H'. assert (O : forall {A} (g : wisard -> A), (forall v, g v = g (with_discriminators v ∅)) -> g w' = g w) by (intros A g Hg; rewrite (Hg w'), (Hg w), (wu_opts _ _ _ HU); reflexivity).
  unfold wisard_classify, wisard_classify1 in H, H'. cbn [rmapM] in H, H'. unfold firm, wisard_candidates in *.
  rewrite (O _ w_bleachingActivated ltac:(reflexivity)), (O _ w_searchBestConfidence ltac:(reflexivity)), (O _ w_confidence ltac:(reflexivity)) in H'.
  destruct (all_votes (w_discriminators w) x) as [m| | |] eqn:Em; try discriminate. destruct (all_votes (w_discriminators w') x) as [m'| | |] eqn:Em'; try discriminate. cbn [rbind] in *.
  destruct (bleaching_make m _ _ _) as [out| | |] eqn:Eo; try discriminate. destruct (bleaching_make m' _ _ _) as [out'| | |] eqn:Eo'; try discriminate. cbn [rbind] in *. injection H as Hl. injection H' as Hk.
  pose proof (votes_more l w w' x m m' HU Em Em') as HM. pose proof HM as (_ & vs & vs' & Ev & Ev' & _).
  assert (W : winner out l /\ winner out' l).
  { destruct (w_bleachingActivated w) eqn:EB.
    - pose proof (make_bleached _ _ _ _ Eo) as HB. pose proof (make_bleached _ _ _ _ Eo') as HB'. assert (Hw : winner out l).
      { destruct HB as (b & _ & -> & _). rewrite <- Hl. apply biggest_winner; [intros q v Hq; eapply tallies_nonneg; exact Hq|]. intros H0. apply (f_equal (lookup l)) in H0. unfold tallies in H0. rewrite lookup_fmap, Ev in H0. discriminate. }
      split; [exact Hw|]. eapply bleached_up; [exact HM|exact HB|exact HB'| |exact Hw]. destruct Hf as [Hf|[Hf|(cand & v & Ec & Hv & Hv1)]]; [discriminate|left; exact Hf|right; exists v; split; [congruence|exact Hv1]].
    - rewrite bleach_off in Eo, Eo'. injection Eo as <-. injection Eo' as <-. assert (Hw : winner (tallies 1 m) l).
      { rewrite <- Hl. apply biggest_winner; [intros q v Hq; eapply tallies_nonneg; exact Hq|]. intros H0. apply (f_equal (lookup l)) in H0. unfold tallies in H0. rewrite lookup_fmap, Ev in H0. discriminate. }
      split; [exact Hw|]. eapply winner_up; [apply tallies_up; exact HM|exact Hw]. }
  destruct W as [_ W']. eapply winner_unique; [|exact W']. rewrite <- Hk. destruct W' as (v & Hv & _).
  apply biggest_winner; [|intros H0; rewrite H0 in Hv; rewrite lookup_empty in Hv; discriminate]. intros q u Hq.
  destruct (w_bleachingActivated w); [destruct (make_bleached _ _ _ _ Eo') as (b & _ & -> & _)|rewrite bleach_off in Eo'; injection Eo' as <-]; eapply tallies_nonneg; exact Hq.
Qed.
