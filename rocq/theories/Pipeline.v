(** Lemmas for C149, C150: images synthesised from the mental images of a Wisard. *)
From Verif Require Import Prelude Bytes Utils BinInput Bleaching Ram Disc DataSet Wisard Synth SpecDisc SpecBleach SpecWisard.
From Verif Require Import UtilsProofs TextProofs DiscCtorProofs BinProofs DiscProofs MentalHistory BleachProofs CtorFacts WisardProofs WisardFacts WisardMore Recall PropsSynth.

(** ** The Synthesizer on any integers *)
Lemma fill_ones : forall left j v m m', synth_fill left j v m = Ok m' -> (forall i e, m !! i = Some e -> e = 1) -> forall i e, m' !! i = Some e -> e = 1.
Proof.
  induction left as [|left IH]; intros j v m m' E Hm; cbn [synth_fill] in E; [injection E as <-; exact Hm|].
  destruct (v =? 0); [injection E as <-; exact Hm|]. destruct (int_of (v - 1)) as [v'| | |]; cbn [rbind] in E; [|discriminate|discriminate|discriminate].
  eapply IH; [exact E|]. intros i e. destruct (decide (i = j)) as [->|Hij]; [rewrite lookup_insert; congruence|rewrite lookup_insert_ne by congruence; apply Hm].
Qed.
Lemma fill_zero left j m : synth_fill left j 0 m = Ok m.
Proof. destruct left; reflexivity. Qed.
Lemma make_any img s r out : synth_new img = Ok s -> synth_make s r = Ok out ->
  Forall2 (fun v o => (o = 0 \/ o = 1) /\ (v = 0 -> o = 0)) img out.
Proof.
  unfold synth_new, synth_make. intros E1 E2. destruct (rmapM _ img) as [cube| | |] eqn:E; cbn [rbind] in E1; [|discriminate|discriminate|discriminate]. injection E1 as <-.
  cbn [sy_maxData sy_cube] in E2. destruct (int_of _) as [top| | |]; cbn [rbind] in E2; [|discriminate|discriminate|discriminate].
  destruct (randint 0 top r) as [ix| | |]; cbn [rbind] in E2; [|discriminate|discriminate|discriminate]. injection E2 as <-.
  revert cube E. generalize (Z.to_nat (synth_max img)) as k. intros k. induction img as [|v img IH]; intros cube E; cbn [rmapM] in E.
  - injection E as <-. constructor.
  - destruct (synth_fill k 0 v ∅) as [m| | |] eqn:Em; cbn [rbind] in E; [|discriminate|discriminate|discriminate].
    destruct (rmapM _ img) as [ms| | |] eqn:Ems; cbn [rbind] in E; [|discriminate|discriminate|discriminate]. injection E as <-. rewrite fmap_cons. constructor; [|apply IH; reflexivity].
    split.
    + destruct (m !! ix) as [e|] eqn:Ee; [|left; reflexivity]. right. cbn. eapply (fill_ones _ _ _ _ _ Em); [|exact Ee]. intros i e'. rewrite lookup_empty. discriminate.
    + intros ->. rewrite fill_zero in Em. injection Em as <-. rewrite lookup_empty. reflexivity.
Qed.

(** ** The mental law is zero at a pixel no training image had on *)
Lemma net_off addrs p h : p ∈ addrs -> forall seen, Forall (fun y => on p y = false) seen -> (forall y, Train y ∈ h -> on p y = false) -> net_active addrs p seen h = 0.
Proof.
  intros Hp. induction h as [|[y|y] h IH]; intros seen Hs Hh; cbn [net_active]; [reflexivity| |].
  - rewrite (Hh y) by left. rewrite IH; [reflexivity| |intros z Hz; apply Hh; right; exact Hz]. constructor; [apply Hh; left|exact Hs].
  - rewrite IH; [|exact Hs|intros z Hz; apply Hh; right; exact Hz]. destruct (on p y) eqn:Ey; [|reflexivity]. rewrite bool_decide_eq_false_2; [reflexivity|].
    intros Hex. apply Exists_exists in Hex as (z & Hz & Ha). rewrite Forall_forall in Hs. specialize (Hs z Hz). cbv beta in Hs.
    unfold agree in Ha. rewrite Forall_forall in Ha. specialize (Ha p Hp). unfold on in Ey, Hs. rewrite Ha in Ey. congruence.
Qed.
Lemma law_off d h p : (forall y, Train y ∈ h -> on p y = false) -> mental_law d h p = 0.
Proof.
  intros Hh. unfold mental_law. induction (d_rams d) as [|r rs IH]; [reflexivity|]. rewrite fmap_cons. unfold zsum in *. cbn [foldr]. rewrite IH.
  destruct (decide (p ∈ r_addresses r)) as [Hp|Hp].
  - rewrite (net_off _ _ _ Hp); [lia|constructor|exact Hh].
  - rewrite count_if_false; [lia|]. intros a Ha. apply Z.eqb_neq. intros ->. contradiction.
Qed.
Lemma since_elem h o : o ∈ since_first_training h -> o ∈ h.
Proof. induction h as [|[y|y] h IH]; cbn [since_first_training]; intros H; [exact H|exact H|]. right. apply IH, H. Qed.
Lemma law_on d l es p : mental_law d (history l es) p <> 0 -> exists x, (l, Train x) ∈ es /\ on p x = true.
Proof.
  intros H. destruct (decide (Exists (fun e => e.1 = l /\ match e.2 with Train x => on p x | Untrain _ => false end = true) es)) as [Hex|Hn].
  - apply Exists_exists in Hex as ([l' [x|x]] & He & E & Ho); cbn in E, Ho; [|discriminate]. subst l'. eauto.
  - exfalso. apply H, law_off. intros y Hy. unfold history in Hy. apply since_elem, of_label_elem in Hy. destruct (on p y) eqn:Ey; [|reflexivity].
    exfalso. apply Hn, Exists_exists. exists (l, Train y). split; [exact Hy|]. cbn. auto.
Qed.

(** ** Each pixel is wired once *)
Lemma wired_once w n l d : configured w n -> w_mapping w !! l = None -> can_learn w n l -> n mod w_addressSize w = 0 -> built w n l d ->
  forall p, 0 <= p < n -> wires d p = 1.
Proof.
  intros ((Hn0 & Hn) & Hb & Ha & _) Hm Hl Hmod (dr & Hdr & E) p Hp. unfold can_learn in Hl. rewrite Hm in Hl. destruct Hl as (Han & Hsum & Hf & Hix).
  assert (Hli : len (w_indexes w) <= INT_MAX).
  { destruct Hix as [->|Hix]; [unfold len, INT_MAX; cbn; lia|]. unfold len. rewrite (Permutation_length Hix), fmap_length, seq_length. lia. }
  assert (Hseq : NoDup (Z.of_nat <$> seq 0 (Z.to_nat n))) by (apply NoDup_fmap_2; [apply _|apply NoDup_seq]).
  assert (Hpin : p ∈ Z.of_nat <$> seq 0 (Z.to_nat n)) by (apply elem_of_list_fmap; exists (Z.to_nat p); split; [lia|]; apply elem_of_seq; lia).
  assert (G : exists idx, idx ≡ₚ (Z.of_nat <$> seq 0 (Z.to_nat n)) /\ List.concat (disc_mapping d) = idx).
  { assert (Hd : disc_new dr (w_addressSize w) n (w_ignoreZero w) (w_completeAddressing w) (w_indexes w) [] (w_base w) = Ok d).
    { unfold disc_new. cbn [length Nat.eqb negb]. unfold construct_discriminator in E. rewrite Hm in E. destruct (negb _) eqn:E0; exact E. }
    destruct (disc_new_inv dr _ n _ _ _ _ _ d Hdr Hli ltac:(constructor) Hd) as (_ & [(Hx & _)|(_ & _ & _ & [(Hne & _ & ->)|(He & _ & idx & fs & Hpm & Hfs & _ & ->)])]); [congruence| |].
    - exists (w_indexes w). destruct Hix as [?|Hix]; [congruence|]. split; [exact Hix|]. unfold disc_mapping. cbn [d_rams]. rewrite rams_of_mapping, concat_sub by lia. apply take_ge.
      rewrite (Permutation_length Hix), fmap_length, seq_length. pose proof (Z_div_mod_eq_full n (w_addressSize w)). pose proof (Z.div_pos n (w_addressSize w)). nia.
    - destruct (count_extra n (w_addressSize w) (w_completeAddressing w) Han) as (Hk & Hx & Hle & Hexact & Hnone & Hcount). rewrite (Hnone Hmod) in *.
      assert (fs = []) as ->. { destruct fs; [reflexivity|]. rewrite len_cons in Hfs. pose proof (len_nonneg fs). lia. }
      rewrite app_nil_r in Hpm. exists idx. split; [exact Hpm|]. unfold disc_mapping. cbn [d_rams]. rewrite rams_of_mapping, concat_sub by lia. apply take_ge.
      rewrite (Permutation_length Hpm), fmap_length, seq_length. specialize (Hexact (or_intror Hmod)). nia. }
  destruct G as (idx & Hpm & E1). unfold wires. rewrite E1, (count_if_perm _ _ _ Hpm). revert Hseq Hpin. generalize (Z.of_nat <$> seq 0 (Z.to_nat n)) as xs. clear.
  induction xs as [|x xs IH]; intros Hnd Hin; [inversion Hin|]. apply NoDup_cons in Hnd as [Hx Hnd]. rewrite count_if_cons. apply elem_of_cons in Hin as [->|Hin].
  - rewrite Z.eqb_refl, count_if_false; [lia|]. intros a Ha. apply Z.eqb_neq. intros ->. contradiction.
  - destruct (Z.eqb_spec x p) as [->|_]; [contradiction|]. rewrite IH by assumption. lia.
Qed.

(** ** Images with the same pixels get the same votes *)
Lemma vote_same r h x y : agree (r_addresses r) x y -> vote_due r h x = vote_due r h y.
Proof.
  intros Ha. unfold agree in Ha. rewrite Forall_forall in Ha.
  assert (Hag : forall z, agree (r_addresses r) x z <-> agree (r_addresses r) y z).
  { intros z. unfold agree. rewrite !Forall_forall. split; intros H a Hin; [rewrite <- (Ha a Hin)|rewrite (Ha a Hin)]; apply H, Hin. }
  unfold vote_due. assert (bool_decide (all_zero (r_addresses r) x) = bool_decide (all_zero (r_addresses r) y)) as ->.
  { apply bool_decide_ext. unfold all_zero. rewrite !Forall_forall. split; intros H a Hin; [rewrite <- (Ha a Hin)|rewrite (Ha a Hin)]; apply H, Hin. }
  assert (Hb : forall z, bool_decide (agree (r_addresses r) x z) = bool_decide (agree (r_addresses r) y z)) by (intros z; apply bool_decide_ext, Hag).
  destruct (_ && _); [reflexivity|]. f_equal.
  - unfold trainings. apply count_if_ext. intros [z|z] _; [apply Hb|reflexivity].
  - induction h as [|[z|z] h IH]; cbn [effective_untrainings]; [reflexivity| |exact IH]. destruct (decide (agree (r_addresses r) x z)) as [Hx|Hx]; destruct (decide (agree (r_addresses r) y z)) as [Hy|Hy]; try (exfalso; apply Hag in Hx + apply Hag in Hy; contradiction); [|exact IH].
    apply count_if_ext. intros [t|t] _; [reflexivity|apply Hb].
Qed.
Lemma owed_same w0 n d0 es w x y : winv w0 n d0 es w -> (forall p, 0 <= p < n -> im_get x p = im_get y p) -> votes_owed d0 es x = votes_owed d0 es y.
Proof.
  intros (_ & Hi) Hxy. apply map_eq. intros l. rewrite !owed_lookup. destruct (d0 !! l) as [d|] eqn:Ed; [|reflexivity]. cbn. f_equal.
  specialize (Hi l). rewrite Ed in Hi. unfold label_inv in Hi. destruct (w_discriminators w !! l); [|contradiction]. destruct Hi as (_ & _ & Hs & _).
  apply list_fmap_ext. intros k r Hr. apply vote_same. unfold agree. apply Forall_forall. intros a Ha. apply Hxy.
  destruct Hs as (_ & He & Hw & _).
  unfold wired_inside in Hw. pose proof (Forall_lookup_1 _ _ _ _ Hw Hr) as Hx. cbv beta in Hx. rewrite Forall_forall in Hx. rewrite He in Hx. apply Hx, Ha.
Qed.
