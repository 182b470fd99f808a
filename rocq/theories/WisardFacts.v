(** Facts behind the property theorems of PropsWisard.v. *)
From Verif Require Import Prelude Bytes Utils BinInput Bleaching Ram Disc DataSet Wisard SpecBin SpecDisc SpecBleach SpecWisard.
From Verif Require Import BytesProofs BinProofs UtilsProofs TextProofs BleachProofs DiscCtorProofs CtorFacts RamProofs DiscProofs DiscFacts MentalHistory WisardProofs.

(** C45 *)
Definition with_searchBest (w : wisard) (b : bool) : wisard :=
  Wisard (w_addressSize w) (w_bleachingActivated w) (w_verbose w) (w_mapping w) (w_indexes w)
    (w_ignoreZero w) (w_completeAddressing w) (w_base w) b
    (w_returnConfidence w) (w_returnActivationDegree w) (w_returnClassesDegrees w)
    (w_confidence w) (w_discriminators w).
Lemma rmapM_ext {A B} (f g : A -> res B) l : (forall x, f x = g x) -> rmapM f l = rmapM g l.
Proof. intros H. induction l as [|x l IH]; [reflexivity|]. cbn [rmapM]. rewrite H, IH. reflexivity. Qed.
Lemma searchBest_irrelevant w b xs : wisard_classify (with_searchBest w b) xs = wisard_classify w xs.
Proof.
  apply rmapM_ext. intros x. unfold wisard_classify1, wisard_candidates, with_searchBest. cbn.
  destruct (all_votes (w_discriminators w) x); cbn [rbind]; try reflexivity. rewrite (bleach_sbc a _ b (w_searchBestConfidence w)). reflexivity.
Qed.

(** C47: a call only touches the labels it names. *)
Definition call_labels (c : wcall) : list str :=
  match c with CTrain _ _ ls => ls | CLeaveOne _ l => [l] | CLeaveMore _ ls => ls end.

Lemma at_label_other f w l k : k <> l -> w_discriminators (snd (at_label f w l)) !! k = w_discriminators w !! k.
Proof.
  intros H. unfold at_label. destruct (w_discriminators w !! l) as [d|]; [|reflexivity]. destruct (f d) as [o d']. cbn.
  rewrite lookup_insert_ne by congruence. reflexivity.
Qed.
Lemma make_other lhs dr w l n k : k <> l -> w_discriminators (snd (makeDiscriminator lhs dr w l n)) !! k = w_discriminators w !! k.
Proof.
  intros H. unfold makeDiscriminator. destruct (construct_discriminator dr w l n); cbn; [rewrite lookup_insert_ne by congruence; reflexivity| |reflexivity..].
  destruct lhs; cbn; [rewrite lookup_insert_ne by congruence|]; reflexivity.
Qed.
Lemma ebind_snd {S A B} (m : eff S A) (k : A -> S -> eff S B) (P : S -> Prop) :
  P (snd m) -> (forall a s, m = (Ok a, s) -> P (snd (k a s))) -> P (snd (ebind m k)).
Proof. destruct m as [[a| | |] s]; cbn; intros H1 H2; auto. Qed.
Lemma train1_other lhs env w x l k : k <> l -> w_discriminators (snd (wisard_train1 lhs env w x l)) !! k = w_discriminators w !! k.
Proof.
  intros H. unfold wisard_train1. destruct (w_discriminators w !! l); [apply at_label_other, H|].
  apply (ebind_snd _ _ (fun s => w_discriminators s !! k = w_discriminators w !! k)); [apply make_other, H|].
  intros a s E. rewrite at_label_other by exact H. rewrite <- (make_other lhs (env l) w l (s32 (im_size x)) k H), E. reflexivity.
Qed.
Lemma leave1_other w x l k : k <> l -> w_discriminators (snd (leaveOneOut w x l)) !! k = w_discriminators w !! k.
Proof. intros H. unfold leaveOneOut. destruct (w_discriminators w !! l); [apply at_label_other, H|reflexivity]. Qed.
Lemma train_loop_other lhs env : forall images labels w k, k ∉ labels ->
  w_discriminators (snd (wisard_train_loop lhs env w images labels)) !! k = w_discriminators w !! k.
Proof.
  induction images as [|x images IH]; intros [|l labels] w k H; try reflexivity. apply not_elem_of_cons in H as [H1 H2]. cbn [wisard_train_loop].
  apply (ebind_snd _ _ (fun s => w_discriminators s !! k = w_discriminators w !! k)); [apply train1_other, H1|].
  intros a s E. rewrite IH by exact H2. rewrite <- (train1_other lhs env w x l k H1), E. reflexivity.
Qed.
Lemma leave_loop_other : forall images labels w k, k ∉ labels ->
  w_discriminators (snd (leaveMoreOut_loop w images labels)) !! k = w_discriminators w !! k.
Proof.
  induction images as [|x images IH]; intros [|l labels] w k H; try reflexivity. apply not_elem_of_cons in H as [H1 H2]. cbn [leaveMoreOut_loop].
  apply (ebind_snd _ _ (fun s => w_discriminators s !! k = w_discriminators w !! k)); [apply leave1_other, H1|].
  intros a s E. rewrite IH by exact H2. rewrite <- (leave1_other w x l k H1), E. reflexivity.
Qed.
Lemma call_other lhs w c k : k ∉ call_labels c -> w_discriminators (snd (wcall_run lhs w c)) !! k = w_discriminators w !! k.
Proof.
  intros H. destruct c as [env images labels|x l|images labels]; cbn [wcall_run call_labels] in *.
  - unfold wisard_train. destruct images as [|x0 images]; [reflexivity|]. destruct (calculateNumberOfRams _ _ _); try reflexivity.
    destruct (checkConfidence _ _); try reflexivity. destruct (checkInputSizes _ _); try reflexivity. apply train_loop_other, H.
  - apply leave1_other. apply not_elem_of_cons in H as [H _]. exact H.
  - unfold leaveMoreOut. destruct (checkInputSizes _ _); try reflexivity. apply leave_loop_other, H.
Qed.
Lemma keyed_inv {A B} (f : A -> res B) (m : gmap str A) (out : gmap str B) :
  (let* vs := rmapM (fun kd => let* v := f kd.2 in Ok (kd.1, v)) (sorted_items m) in Ok (list_to_map vs)) = Ok out ->
  forall k, match m !! k with Some a => exists b, f a = Ok b /\ out !! k = Some b | None => out !! k = None end.
Proof.
  assert (Hg : forall (l : list (str * A)) vs, rmapM (fun kd => let* v := f kd.2 in Ok (kd.1, v)) l = Ok vs ->
     Forall2 (fun kd kv => kv.1 = kd.1 /\ f kd.2 = Ok kv.2) l vs).
  { induction l as [|[k a] l IH]; cbn [rmapM fst snd]; [intros vs [= <-]; constructor|]. intros vs.
    destruct (f a) as [b| | |] eqn:E; cbn [rbind]; try discriminate.
    destruct (rmapM _ l) as [vs'| | |]; cbn [rbind]; try discriminate. intros [= <-]. constructor; [auto|]. apply IH. reflexivity. }
  destruct (rmapM _ (sorted_items m)) as [vs| | |] eqn:E; cbn [rbind]; try discriminate. intros [= <-] k. apply Hg in E.
  assert (Hfst : vs.*1 = (sorted_items m).*1).
  { clear -E. induction E as [|kd kv l vs [H _] _ IH]; [reflexivity|]. rewrite !fmap_cons, H, IH. reflexivity. }
  assert (Hnd : NoDup (vs.*1)) by (rewrite Hfst; apply sorted_items_nodup).
  destruct (m !! k) as [a|] eqn:Ek.
  - apply sorted_items_elem in Ek. apply elem_of_list_lookup in Ek as (i & Hi).
    destruct (Forall2_lookup_l _ _ _ _ _ E Hi) as ([k' b] & Hb & H1 & H2). cbn in *. subst k'. exists b. split; [exact H2|].
    apply elem_of_list_to_map_1; [exact Hnd|]. eapply elem_of_list_lookup_2, Hb.
  - apply not_elem_of_list_to_map_1. rewrite Hfst. intros Hin. apply elem_of_list_fmap in Hin as ([k' a'] & -> & Hin).
    apply sorted_items_elem in Hin. cbn in Ek. congruence.
Qed.
Lemma isolated lhs w c w' o B : B ∉ call_labels c -> wcall_run lhs w c = (o, w') ->
  w_discriminators w' !! B = w_discriminators w !! B /\
  (forall x v v', all_votes (w_discriminators w) x = Ok v -> all_votes (w_discriminators w') x = Ok v' -> v' !! B = v !! B) /\
  (forall iter m m', wisard_mental iter w = Ok m -> wisard_mental iter w' = Ok m' -> m' !! B = m !! B).
Proof.
  intros HB E. pose proof (call_other lhs w c B HB) as H. rewrite E in H. cbn [snd] in H. split; [exact H|]. split.
  - intros x v v' Ev Ev'. pose proof (keyed_inv (fun d => disc_classify d x) _ _ Ev B) as H1.
    pose proof (keyed_inv (fun d => disc_classify d x) _ _ Ev' B) as H2. rewrite H in H2.
    destruct (w_discriminators w !! B); [|congruence]. destruct H1 as (b & Eb & ->), H2 as (b' & Eb' & ->). congruence.
  - intros iter m m' Ev Ev'. pose proof (keyed_inv (disc_mental iter) _ _ Ev B) as H1.
    pose proof (keyed_inv (disc_mental iter) _ _ Ev' B) as H2. rewrite H in H2.
    destruct (w_discriminators w !! B); [|congruence]. destruct H1 as (b & Eb & ->), H2 as (b' & Eb' & ->). congruence.
Qed.

(** C48 *)
Definition training_only (cs : list wcall) : Prop := Forall (fun c => match c with CTrain _ _ _ => True | _ => False end) cs.
Definition wiring_fixed (w : wisard) (l : str) : Prop := is_Some (w_mapping w !! l) \/ w_indexes w <> [].

Lemma built_fixed w n l d d' : wiring_fixed w l -> built w n l d -> built w n l d' -> d = d'.
Proof.
  intros Hf (dr & _ & E) (dr' & _ & E'). unfold construct_discriminator in *. unfold wiring_fixed in Hf.
  destruct (w_mapping w !! l); [congruence|]. destruct Hf as [[? ?]|Hf]; [discriminate|].
  destruct (w_indexes w); [congruence|]. cbn [length Nat.eqb negb] in *. congruence.
Qed.
Definition is_train (e : str * dop) : Prop := match e.2 with Train _ => True | _ => False end.
Lemma training_examples cs : training_only cs -> Forall is_train (all_examples cs).
Proof.
  unfold all_examples. induction 1 as [|c cs Hc _ IH]; [constructor|]. rewrite fmap_cons. cbn [List.concat]. apply Forall_app. split; [|exact IH].
  destruct c as [env images labels| |]; try contradiction. cbn [examples].
  revert labels. induction images as [|x images IHi]; intros [|l labels]; try constructor; [exact I|apply IHi].
Qed.
Lemma of_label_trains l es : Forall is_train es -> exists xs, of_label l es = Train <$> xs.
Proof.
  induction 1 as [|[k o] es Ho _ (xs & IH)]; [exists []; reflexivity|]. unfold of_label in *. rewrite filter_cons. cbn [fst].
  destruct (decide (k = l)); [|exists xs; exact IH]. destruct o as [x|x]; [|destruct Ho]. exists (x :: xs). rewrite !fmap_cons, IH. reflexivity.
Qed.
Lemma history_app_trains l es ps : Forall is_train ps -> history l (es ++ ps) = history l es ++ of_label l ps.
Proof.
  intros Hp. unfold history. assert (E : of_label l (es ++ ps) = of_label l es ++ of_label l ps).
  { unfold of_label. rewrite filter_app, fmap_app. reflexivity. }
  rewrite E. destruct (of_label_trains l ps Hp) as (xs & ->).
  destruct (since_first_training (of_label l es)) as [|o h] eqn:Eh.
  - rewrite since_app_nil by exact Eh. destruct xs; reflexivity.
  - rewrite since_app_ne by congruence. rewrite Eh. reflexivity.
Qed.
Lemma of_label_perm l es es' : es ≡ₚ es' -> of_label l es ≡ₚ of_label l es'.
Proof. intros H. unfold of_label. apply fmap_Permutation. rewrite H. reflexivity. Qed.

Lemma Train_perm (xs ys : list image) : Train <$> xs ≡ₚ Train <$> ys -> xs ≡ₚ ys.
Proof.
  intros H. assert (Hi : forall zs : list image, op_image <$> (Train <$> zs) = zs).
  { intros zs. rewrite <- list_fmap_compose. apply list_fmap_id. }
  rewrite <- (Hi xs), <- (Hi ys). apply fmap_Permutation, H.
Qed.

Lemma after_det d0 h h' d d' : (forall addrs x, cell addrs h x = cell addrs h' x) -> signed_count h = signed_count h' ->
  after d0 h d -> after d0 h' d' -> d = d'.
Proof.
  intros Hc Hs [A1 B1 C1] [A2 B2 C2]. destruct d as [e1 c1 rs1], d' as [e2 c2 rs2]. cbn in *.
  f_equal; [congruence|congruence|]. eapply rams_after_ext; eassumption.
Qed.

Lemma winv_order w0 n d0 d0' es ps ps' w w' :
  Forall is_train ps -> ps ≡ₚ ps' -> (forall l d d', d0 !! l = Some d -> d0' !! l = Some d' -> d = d') ->
  winv w0 n d0 (es ++ ps) w -> winv w0 n d0' (es ++ ps') w' -> w = w'.
Proof.
  intros Hp Hperm Hd (Hw & Hi) (Hw' & Hi').
  assert (Hp' : Forall is_train ps') by (rewrite <- Hperm; exact Hp).
  assert (E : w_discriminators w = w_discriminators w'); [|rewrite Hw, Hw', E; reflexivity].
  apply map_eq. intros l. specialize (Hi l). specialize (Hi' l). specialize (Hd l). unfold label_inv in *.
  rewrite !history_app_trains in * by assumption.
  assert (Hol : of_label l ps ≡ₚ of_label l ps') by (apply of_label_perm, Hperm).
  destruct (of_label_trains l ps Hp) as (xs & Exs). destruct (of_label_trains l ps' Hp') as (ys & Eys). rewrite Exs, Eys in *.
  apply Train_perm in Hol.
  destruct (d0 !! l) as [dd|], (w_discriminators w !! l) as [d|]; try contradiction;
    destruct (d0' !! l) as [dd'|], (w_discriminators w' !! l) as [d'|]; try contradiction.
  - rewrite (Hd dd dd' eq_refl eq_refl) in *. f_equal.
    destruct Hi as (_ & _ & _ & Ha), Hi' as (_ & _ & _ & Ha').
    apply (after_det dd' _ _ d d' (fun addrs x => cell_perm addrs (history l es) xs ys x Hol)) with (2 := Ha) (3 := Ha').
    unfold signed_count. rewrite !count_if_app.
    rewrite !(count_if_perm _ (Train <$> ys) (Train <$> xs)) by (apply fmap_Permutation; symmetry; exact Hol). reflexivity.
  - exfalso. destruct Hi as (Hne & _). apply Hne. apply app_eq_nil in Hi' as [-> Hy]. apply fmap_nil_inv in Hy. subst ys.
    apply Permutation_nil_r in Hol. subst xs. reflexivity.
  - exfalso. destruct Hi' as (Hne & _). apply Hne. apply app_eq_nil in Hi as [-> Hy]. apply fmap_nil_inv in Hy. subst xs.
    symmetry in Hol. apply Permutation_nil_r in Hol. subst ys. reflexivity.
  - reflexivity.
Qed.

Lemma batches_irrelevant lhs lhs' w0 n cs0 cs cs' w : w_discriminators w0 = ∅ -> configured w0 n ->
  Forall (proper_call w0 n) cs0 -> Forall (proper_call w0 n) cs -> Forall (proper_call w0 n) cs' ->
  training_only cs -> training_only cs' -> all_examples cs ≡ₚ all_examples cs' ->
  len (all_examples cs0) + len (all_examples cs) <= INT_MAX ->
  wrun lhs w0 cs0 = (Ok tt, w) ->
  (forall l, is_Some (w_discriminators w !! l) \/ wiring_fixed w0 l) ->
  exists w', wrun lhs w cs = (Ok tt, w') /\ wrun lhs' w cs' = (Ok tt, w').
Proof.
  intros H0 Hc Hp0 Hp Hp' Ht Ht' Hperm Hmax E Hfix. pose proof (len_nonneg (all_examples cs)).
  destruct (wrun_inv lhs w0 n cs0 H0 Hc Hp0 ltac:(lia)) as (w1 & d0 & E1 & Hi). rewrite E in E1. injection E1 as <-.
  destruct (wrun_inv_gen lhs w0 n cs d0 _ w Hc Hi Hp Hmax) as (wa & da & Ea & Hia & Hsa).
  destruct (wrun_inv_gen lhs' w0 n cs' d0 _ w Hc Hi Hp') as (wb & db & Eb & Hib & Hsb).
  { replace (len (all_examples cs')) with (len (all_examples cs)); [lia|]. unfold len. rewrite (Permutation_length Hperm). reflexivity. }
  exists wa. split; [exact Ea|]. rewrite Eb. f_equal. symmetry.
  eapply (winv_order w0 n da db (all_examples cs0) (all_examples cs) (all_examples cs')); [apply training_examples, Ht|exact Hperm| |exact Hia|exact Hib].
  intros l d d' Hd Hd'. destruct (Hfix l) as [[dk Hk]|Hf].
  - destruct Hi as [_ Hi]. specialize (Hi l). rewrite Hk in Hi. unfold label_inv in Hi. destruct (d0 !! l) as [dd|] eqn:Ed; [|destruct Hi].
    rewrite (lookup_weaken _ _ _ _ Ed Hsa) in Hd. rewrite (lookup_weaken _ _ _ _ Ed Hsb) in Hd'. congruence.
  - apply (built_fixed w0 n l d d' Hf).
    + destruct Hia as [_ Hia]. specialize (Hia l). rewrite Hd in Hia. unfold label_inv in Hia. destruct (w_discriminators wa !! l); [|destruct Hia]. apply Hia.
    + destruct Hib as [_ Hib]. specialize (Hib l). rewrite Hd' in Hib. unfold label_inv in Hib. destruct (w_discriminators wb !! l); [|destruct Hib]. apply Hib.
Qed.
