(** Lemmas for C140. *)
From Verif Require Import Prelude Bytes Utils BinInput Bleaching Ram Disc DataSet Wisard SpecDisc SpecBleach SpecWisard SpecMove.
From Verif Require Import BytesProofs UtilsProofs TextProofs BleachProofs DiscCtorProofs CtorFacts RamProofs DiscProofs DiscFacts WisardProofs WisardFacts WisardMore Recall Repeat.

Section move.
Context (pi : Z -> Z) (n : Z) (Hpi : moves pi n) (Hn : 0 <= n <= INT_MAX).

Lemma range_elem p : p ∈ (Z.of_nat <$> seq 0 (Z.to_nat n)) <-> 0 <= p < n.
Proof using Hn.
  rewrite elem_of_list_fmap. split.
  - intros (k & -> & Hk). apply elem_of_seq in Hk. lia.
  - intros Hp. exists (Z.to_nat p). split; [lia|]. apply elem_of_seq. lia.
Qed.
Lemma pi_in p : 0 <= p < n -> 0 <= pi p < n.
Proof using Hpi Hn. intros Hp. apply range_elem. rewrite <- Hpi. apply elem_of_list_fmap. exists p. split; [reflexivity|apply range_elem, Hp]. Qed.
Lemma pi_onto q : 0 <= q < n -> exists p, 0 <= p < n /\ q = pi p.
Proof using Hpi Hn. intros Hq. apply range_elem in Hq. rewrite <- Hpi in Hq. apply elem_of_list_fmap in Hq as (p & -> & Hp). apply range_elem in Hp. eauto. Qed.
Lemma plain_moved base x x' : moved pi n x x' -> plain_image base n x -> plain_image base n x'.
Proof using Hpi Hn.
  intros (_ & Hs & Hm) (_ & Hx). split; [exact Hs|]. intros q Hq. destruct (pi_onto q Hq) as (p & Hp & ->). rewrite Hm by exact Hp. apply Hx, Hp.
Qed.
Lemma agree_moved addrs x x' y y' : Forall (fun p => 0 <= p < n) addrs -> moved pi n x x' -> moved pi n y y' -> agree (pi <$> addrs) x' y' <-> agree addrs x y.
Proof.
  intros Ha (_ & _ & Hx) (_ & _ & Hy). unfold agree. rewrite Forall_fmap. rewrite Forall_forall in Ha. rewrite !Forall_forall. unfold compose.
  split; intros H p Hp; specialize (H p Hp); cbv beta in *; (rewrite Hx, Hy in * by (apply Ha, Hp)); exact H.
Qed.
Lemma zero_moved addrs x x' : Forall (fun p => 0 <= p < n) addrs -> moved pi n x x' -> all_zero (pi <$> addrs) x' <-> all_zero addrs x.
Proof.
  intros Ha (_ & _ & Hx). unfold all_zero. rewrite Forall_fmap. rewrite Forall_forall in Ha. rewrite !Forall_forall. unfold compose.
  split; intros H p Hp; specialize (H p Hp); cbv beta in *; (rewrite Hx in * by (apply Ha, Hp)); exact H.
Qed.

Inductive moved_op : dop -> dop -> Prop :=
| op_train x x' : moved pi n x x' -> moved_op (Train x) (Train x')
| op_untrain x x' : moved pi n x x' -> moved_op (Untrain x) (Untrain x').
Lemma count_moved {A} (R : A -> A -> Prop) (P P' : A -> bool) l l' : (forall a a', R a a' -> P a = P' a') -> Forall2 R l l' -> count_if P l = count_if P' l'.
Proof.
  intros HP. unfold count_if. induction 1 as [|a a' l l' Ha _ IH]; [reflexivity|]. rewrite !filter_cons, (HP a a' Ha).
  destruct (decide (P' a' = true)); rewrite ?len_cons; lia.
Qed.
Lemma due_moved addrs x x' h h' : Forall (fun p => 0 <= p < n) addrs -> moved pi n x x' -> Forall2 moved_op h h' ->
  trainings (pi <$> addrs) x' h' - effective_untrainings (pi <$> addrs) x' h' = trainings addrs x h - effective_untrainings addrs x h.
Proof.
  intros Ha Hx Hh.
  assert (E1 : trainings addrs x h = trainings (pi <$> addrs) x' h').
  { unfold trainings. eapply count_moved; [|exact Hh]. intros o o' [y y' Hy|y y' Hy]; [|reflexivity]. apply bool_decide_ext. symmetry. apply agree_moved; assumption. }
  assert (E2 : effective_untrainings addrs x h = effective_untrainings (pi <$> addrs) x' h').
  { induction Hh as [|o o' h h' Ho Hh IH]; [reflexivity|]. destruct Ho as [y y' Hy|y y' Hy]; cbn [effective_untrainings].
    - pose proof (agree_moved addrs x x' y y' Ha Hx Hy) as Hag. destruct (decide (agree addrs x y)) as [Hd|Hd], (decide (agree (pi <$> addrs) x' y')) as [Hd'|Hd']; try tauto.
      + eapply count_moved; [|exact Hh]. intros p p' [z z' Hz|z z' Hz]; [reflexivity|]. apply bool_decide_ext. symmetry. apply agree_moved; assumption.
      + apply IH. eapply (f_equal (fun z => z)). clear -E1 Hag Hd Hd' Hh Ha Hx. unfold trainings. eapply count_moved; [|exact Hh]. intros o o' [z z' Hz|z z' Hz]; [|reflexivity]. apply bool_decide_ext. symmetry. apply agree_moved; assumption.
    - apply IH. clear -Hh Ha Hx. unfold trainings. eapply count_moved; [|exact Hh]. intros o o' [z z' Hz|z z' Hz]; [|reflexivity]. apply bool_decide_ext. symmetry. apply agree_moved; assumption. }
  lia.
Qed.

(** Labelled examples. *)
Definition moved_ex (e e' : str * dop) : Prop := e.1 = e'.1 /\ moved_op e.2 e'.2.
Lemma label_moved l es es' : Forall2 moved_ex es es' -> Forall2 moved_op (of_label l es) (of_label l es').
Proof.
  unfold of_label. induction 1 as [|[k o] [k' o'] es es' [Hk Ho] _ IH]; [constructor|]. cbn in Hk, Ho. subst k'. rewrite !filter_cons. cbn [fst].
  destruct (decide (k = l)); [|exact IH]. rewrite !fmap_cons. constructor; assumption.
Qed.
Lemma history_moved l es es' : Forall2 moved_ex es es' -> Forall2 moved_op (history l es) (history l es').
Proof.
  intros H. unfold history. apply label_moved with (l := l) in H. induction H as [|o o' h h' Ho Hh IH]; [constructor|].
  destruct Ho as [x x' Hx|x x' Hx]; cbn [since_first_training]; [constructor; [constructor; exact Hx|exact Hh]|exact IH].
Qed.
Lemma zip_moved (F : image -> dop) (ls : list str) : (forall x x', moved pi n x x' -> moved_op (F x) (F x')) -> forall xs xs', Forall2 (moved pi n) xs xs' -> Forall2 moved_ex (zip ls (F <$> xs)) (zip ls (F <$> xs')).
Proof.
  intros HF. induction ls as [|l ls IH]; intros xs xs' H; [constructor|]. destruct H as [|x x' xs xs' Hx H]; [constructor|]. cbn. constructor; [split; [reflexivity|apply HF, Hx]|apply IH, H].
Qed.
Lemma examples_moved c c' : moved_call pi n c c' -> Forall2 moved_ex (examples c) (examples c').
Proof.
  intros [env env' xs xs' ls _ H|x x' l H|xs xs' ls H]; cbn [examples].
  - apply zip_moved; [intros; constructor; assumption|exact H].
  - constructor; [split; [reflexivity|constructor; exact H]|constructor].
  - apply zip_moved; [intros; constructor; assumption|exact H].
Qed.
Lemma all_moved cs cs' : Forall2 (moved_call pi n) cs cs' -> Forall2 moved_ex (all_examples cs) (all_examples cs').
Proof. unfold all_examples. induction 1 as [|c c' cs cs' Hc _ IH]; [constructor|]. rewrite !fmap_cons. cbn [List.concat]. apply Forall2_app; [apply examples_moved, Hc|exact IH]. Qed.

(** Configurations. *)
Lemma learn_moved w l : can_learn w n l -> can_learn (move_wiring pi w) n l.
Proof using Hpi Hn.
  unfold can_learn. cbn [w_mapping move_wiring w_base w_addressSize w_indexes]. rewrite lookup_fmap. destruct (w_mapping w !! l) as [m|]; cbn [fmap option_fmap option_map].
  - intros H. apply Forall_fmap. eapply Forall_impl; [exact H|]. intros addrs (H1 & H2 & H3). unfold compose. assert (El : len (pi <$> addrs) = len addrs) by (unfold len; rewrite fmap_length; reflexivity).
    rewrite El. split; [exact H1|]. split; [exact H2|]. apply Forall_fmap. eapply Forall_impl; [exact H3|]. exact pi_in.
  - intros (H1 & H2 & H3 & H4). split; [exact H1|]. split; [exact H2|]. split; [exact H3|]. destruct H4 as [->|H4]; [left; reflexivity|]. right. rewrite H4. exact Hpi.
Qed.
Lemma proper_moved w c c' : moved_call pi n c c' -> proper_call w n c -> proper_call (move_wiring pi w) n c'.
Proof using Hpi Hn.
  intros Hc (HF & Hp). split.
  - pose proof (examples_moved c c' Hc) as H. cbn [w_base move_wiring]. clear -HF H Hpi Hn. induction H as [|[k o] [k' o'] es es' [_ Ho] _ IH]; [constructor|].
    apply Forall_cons in HF as [Hx HF]. constructor; [|apply IH, HF]. cbn in *. destruct Ho as [x x' Hm|x x' Hm]; eapply plain_moved; eassumption.
  - assert (Hlen : forall xs xs', Forall2 (moved pi n) xs xs' -> len xs' = len xs) by (intros xs xs' H; unfold len; rewrite (Forall2_length _ _ _ H); reflexivity).
    destruct Hc as [env env' xs xs' ls He H|x x' l H|xs xs' ls H]; [|exact I|rewrite (Hlen _ _ H); exact Hp].
    destruct Hp as (Hne & Hl & Hcl & Hv). split; [intros ->; inversion H; subst; congruence|]. split; [rewrite (Hlen _ _ H); exact Hl|].
    split; [eapply Forall_impl; [exact Hcl|]; intros l; apply learn_moved|exact He].
Qed.

(** Initial discriminators. *)
Definition moved_ram (r r' : ram) : Prop := r_addresses r' = pi <$> r_addresses r /\ r_ignoreZero r' = r_ignoreZero r /\ Forall (fun p => 0 <= p < n) (r_addresses r).
Lemma built_moved w l d d' : configured w n -> can_learn w n l -> wiring_fixed w l -> built w n l d -> built (move_wiring pi w) n l d' -> Forall2 moved_ram (d_rams d) (d_rams d').
Proof using Hpi Hn.
  intros (_ & Hb & Ha & _) Hl Hfix (dr & Hdr & E) (dr' & Hdr' & E'). pose proof (learn_moved w l Hl) as Hl'. unfold can_learn in Hl, Hl'. unfold construct_discriminator in E, E'. unfold wiring_fixed in Hfix.
  cbn [w_mapping move_wiring w_base w_addressSize w_indexes w_ignoreZero w_completeAddressing] in *. rewrite lookup_fmap in E', Hl'. destruct (w_mapping w !! l) as [m|]; cbn [fmap option_fmap option_map] in *.
  - rewrite setRAMByMapping_ok in E; auto; [|eapply Forall_impl; [exact Hl|]; cbn; tauto|eapply Forall_impl; [exact Hl|]; intros addrs (_ & H & _); apply fits_width, H].
    rewrite setRAMByMapping_ok in E'; auto; [|eapply Forall_impl; [exact Hl'|]; cbn; tauto|eapply Forall_impl; [exact Hl'|]; intros addrs (_ & H & _); apply fits_width, H].
    injection E as <-. injection E' as <-. cbn [d_rams]. unfold rams_map. rewrite <- list_fmap_compose. apply Forall2_fmap_2. clear -Hl.
    induction Hl as [|addrs m (_ & _ & H) _ IH]; constructor; [|exact IH]. split; [reflexivity|]. split; [reflexivity|exact H].
  - destruct Hfix as [[? ?]|Hne]; [discriminate|]. destruct Hl as (Han & Hsum & Hf & Hix). destruct Hl' as (_ & _ & _ & Hix').
    destruct Hix as [?|Hix]; [congruence|]. assert (Hne' : pi <$> w_indexes w <> []) by (intros H; apply fmap_nil_inv in H; congruence).
    destruct Hix' as [?|Hix']; [congruence|].
    assert (Hlen : len (w_indexes w) = n) by (unfold len; rewrite (Permutation_length Hix), fmap_length, seq_length; lia).
    assert (Hlen' : len (pi <$> w_indexes w) = n) by (unfold len in *; rewrite fmap_length; exact Hlen).
    destruct (index_layout dr (w_addressSize w) n (w_ignoreZero w) true (w_indexes w) (w_base w) Hne ltac:(lia) Han Hb Hf Hix) as (e & He & _ & _ & Hk & Hr).
    destruct (index_layout dr (w_addressSize w) n (w_ignoreZero w) true (pi <$> w_indexes w) (w_base w) Hne' ltac:(lia) Han Hb Hf Hix') as (e' & He' & _ & _ & Hk' & Hr').
    unfold disc_new in He, He'. cbn [length Nat.eqb negb] in He, He'.
    destruct (negb (Nat.eqb (length (w_indexes w)) 0)) eqn:E0; [|destruct (w_indexes w); [congruence|discriminate]].
    destruct (negb (Nat.eqb (length (pi <$> w_indexes w)) 0)) eqn:E0'; [|rewrite fmap_length in E0'; congruence]. cbn [negb] in He, He'.
    assert (d = e) as -> by congruence. assert (d' = e') as -> by congruence.
    apply Forall2_same_length_lookup_2; [unfold len in *; lia|]. intros i r r' Hi Hi'. destruct (Hr i r Hi) as (_ & H2 & _ & H4 & H5). destruct (Hr' i r' Hi') as (_ & H2' & _ & H4' & H5').
    split; [|split; [congruence|]].
    + apply list_eq. intros j. rewrite list_lookup_fmap. destruct (Nat.lt_ge_cases j (Z.to_nat (w_addressSize w))) as [Hj|Hj].
      * rewrite H5, H5', list_lookup_fmap by exact Hj. reflexivity.
      * rewrite !lookup_ge_None_2 by (unfold len in *; lia). reflexivity.
    + apply Forall_forall. intros p Hp. apply elem_of_list_lookup in Hp as (j & Hj). rewrite H5 in Hj.
      * apply range_elem. rewrite <- Hix. eapply elem_of_list_lookup_2. exact Hj.
      * apply lookup_lt_Some in Hj. unfold len in H4. lia.
Qed.

Lemma moved_owed (d0 d0' : gmap str disc) es es' x x' : Forall2 moved_ex es es' -> moved pi n x x' ->
  (forall l, match d0 !! l, d0' !! l with Some d, Some d' => Forall2 moved_ram (d_rams d) (d_rams d') | None, None => True | _, _ => False end) ->
  votes_owed d0' es' x' = votes_owed d0 es x.
Proof.
  intros He Hx Hd. apply map_eq. intros l. rewrite !owed_lookup. specialize (Hd l). destruct (d0 !! l) as [d|], (d0' !! l) as [d'|]; try contradiction; [|reflexivity]. cbn. f_equal.
  pose proof (history_moved l es es' He) as Hh. induction Hd as [|r r' rs rs' (E1 & E2 & E3) _ IH]; [reflexivity|]. rewrite !fmap_cons, IH. f_equal.
  unfold vote_due. rewrite E1, E2. rewrite (due_moved _ x x' _ _ E3 Hx Hh). rewrite (bool_decide_ext _ _ (zero_moved (r_addresses r) x x' E3 Hx)). reflexivity.
Qed.
End move.

Lemma moved_wisard lhs lhs' pi w0 n cs cs' : moves pi n -> w_discriminators w0 = ∅ -> configured w0 n -> Forall (proper_call w0 n) cs -> Forall2 (moved_call pi n) cs cs' ->
  (forall l, trained l (all_examples cs) -> wiring_fixed w0 l) -> len (all_examples cs) <= INT_MAX - 2 ->
  exists w w', wrun lhs w0 cs = (Ok tt, w) /\ wrun lhs' (move_wiring pi w0) cs' = (Ok tt, w') /\
    forall x x', plain_image (w_base w0) n x -> moved pi n x x' ->
      exists cand, wisard_candidates w x = Ok cand /\ wisard_candidates w' x' = Ok cand.
Proof.
  intros Hpi H0 Hc Hp Hm Hfix Hl. assert (Hn : 0 <= n <= INT_MAX) by apply Hc.
  assert (Hp' : Forall (proper_call (move_wiring pi w0) n) cs').
  { clear -Hm Hp Hpi Hn. induction Hm as [|c c' cs cs' Hcc _ IH]; [constructor|]. apply Forall_cons in Hp as [? ?]. constructor; [eapply proper_moved; eassumption|auto]. }
  pose proof (all_moved pi n cs cs' Hm) as He. assert (Hl' : len (all_examples cs') <= INT_MAX - 2) by (unfold len in *; rewrite <- (Forall2_length _ _ _ He); exact Hl).
  assert (Hc' : configured (move_wiring pi w0) n) by exact Hc. assert (H0' : w_discriminators (move_wiring pi w0) = ∅) by exact H0.
  destruct (wrun_inv lhs w0 n cs H0 Hc Hp ltac:(lia)) as (w & d0 & E & Hi).
  destruct (wrun_inv lhs' (move_wiring pi w0) n cs' H0' Hc' Hp' ltac:(lia)) as (w' & d0' & E' & Hi').
  exists w, w'. split; [exact E|]. split; [exact E'|]. intros x x' Hx Hxx.
  assert (Hd : forall l, match d0 !! l, d0' !! l with Some d, Some d' => Forall2 (moved_ram pi n) (d_rams d) (d_rams d') | None, None => True | _, _ => False end).
  { intros l. destruct Hi as [_ Hi]. destruct Hi' as [_ Hi']. specialize (Hi l). specialize (Hi' l). unfold label_inv in *. pose proof (history_moved pi n l _ _ He) as Hh.
    destruct (d0 !! l) as [d|], (w_discriminators w !! l); try contradiction; destruct (d0' !! l) as [d'|], (w_discriminators w' !! l); try contradiction; try exact I.
    - destruct Hi as (Hne & Hb & _), Hi' as (_ & Hb' & _). apply history_trained in Hne. eapply (built_moved pi n Hpi Hn w0 l); try eassumption; [eapply trained_learns; eassumption|apply Hfix, Hne].
    - destruct Hi as (Hne & _). rewrite Hi' in Hh. inversion Hh. congruence.
    - destruct Hi' as (Hne & _). rewrite Hi in Hh. inversion Hh. congruence. }
  destruct (candidates_inv w0 n d0 _ w x Hn Hi ltac:(lia) Hx) as (cand & Ec & Hdg & _). exists cand. split; [exact Ec|].
  destruct (candidates_inv (move_wiring pi w0) n d0' _ w' x' Hn Hi' ltac:(lia)) as (cand' & -> & Hdg' & _); [eapply plain_moved; eassumption|]. f_equal.
  pose proof (fun H => moved_owed pi n H d0 d0' _ _ x x' He Hxx Hd) as Hv; rewrite (Hv ltac:(assumption)) in Hdg'. eapply degrees_unique; [exact Hdg'|exact Hdg].
Qed.
