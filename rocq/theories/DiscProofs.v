(** Histories of train/untrain calls on one discriminator. *)
From Verif Require Import Prelude Bytes Utils BinInput Ram Disc SpecDisc.
From Verif Require Import BytesProofs UtilsProofs TextProofs DiscCtorProofs RamProofs.

Lemma rams_update_ok f rs : Forall (fun r => fst (f r) = Ok tt) rs ->
  rams_update f rs = (Ok tt, (fun r => snd (f r)) <$> rs).
Proof.
  induction 1 as [|r rs Hr H IH]; [reflexivity|]. cbn [rams_update fmap list_fmap].
  destruct (f r) as [o r']. cbn [fst snd] in *. subst o. rewrite IH. reflexivity.
Qed.

Lemma efor_app {S X} (body : S -> X -> eff S unit) l1 l2 s :
  efor body (l1 ++ l2) s = ebind (efor body l1 s) (fun _ s' => efor body l2 s').
Proof.
  revert s. induction l1 as [|x l1 IH]; intros s; [reflexivity|]. cbn [app efor].
  destruct (body s x) as [[| | |] s']; cbn [ebind]; auto.
Qed.

(** ** Arithmetic of the specification *)
Lemma count_if_nil {A} (P : A -> bool) : count_if P [] = 0. Proof. reflexivity. Qed.
Lemma count_if_cons {A} (P : A -> bool) x l : count_if P (x :: l) = (if P x then 1 else 0) + count_if P l.
Proof.
  unfold count_if. rewrite filter_cons. destruct (decide (P x = true)) as [->|Hn].
  - rewrite len_cons. reflexivity.
  - destruct (P x); [congruence|]. reflexivity.
Qed.
Lemma count_if_app {A} (P : A -> bool) l1 l2 : count_if P (l1 ++ l2) = count_if P l1 + count_if P l2.
Proof. induction l1 as [|x l1 IH]; [reflexivity|]. cbn [app]. rewrite !count_if_cons, IH. lia. Qed.
Lemma count_if_range {A} (P : A -> bool) l : 0 <= count_if P l <= len l.
Proof. induction l as [|x l IH]; [unfold count_if, len; cbn; lia|]. rewrite count_if_cons, len_cons. destruct (P x); lia. Qed.
Lemma count_if_perm {A} (P : A -> bool) l1 l2 : l1 ≡ₚ l2 -> count_if P l1 = count_if P l2.
Proof. induction 1; rewrite ?count_if_cons; lia. Qed.
Lemma count_if_ext {A} (P Q : A -> bool) l : (forall x, x ∈ l -> P x = Q x) -> count_if P l = count_if Q l.
Proof.
  intros H. induction l as [|x l IH]; [reflexivity|]. rewrite !count_if_cons, H by left.
  rewrite IH; [reflexivity|]. intros y Hy. apply H. right. exact Hy.
Qed.
Lemma count_if_fmap {A B} (f : A -> B) (P : B -> bool) l : count_if P (f <$> l) = count_if (fun x => P (f x)) l.
Proof. induction l as [|x l IH]; [reflexivity|]. rewrite fmap_cons, !count_if_cons, IH. reflexivity. Qed.
Lemma count_if_pos {A} (P : A -> bool) l : 0 < count_if P l <-> exists x, x ∈ l /\ P x = true.
Proof.
  induction l as [|x l IH].
  - split; [cbn; unfold count_if, len; cbn; lia|]. intros (x & H & _). inversion H.
  - rewrite count_if_cons. pose proof (count_if_range P l). destruct (P x) eqn:E.
    + split; [|lia]. intros _. exists x. split; [left|exact E].
    + rewrite Z.add_0_l, IH. split; intros (y & Hy & Py); exists y; (split; [|exact Py]).
      * right. exact Hy.
      * apply elem_of_cons in Hy as [->|Hy]; [congruence|exact Hy].
Qed.
Lemma count_if_false {A} (P : A -> bool) l : (forall x, x ∈ l -> P x = false) -> count_if P l = 0.
Proof.
  intros H. induction l as [|x l IH]; [reflexivity|]. rewrite count_if_cons, H by left. apply IH. intros y Hy. apply H. right. exact Hy.
Qed.

Definition untrainings (addrs : list Z) (x : image) (h : list dop) : Z :=
  count_if (fun o => match o with Untrain z => bool_decide (agree addrs x z) | _ => false end) h.

Lemma trainings_snoc addrs x h o : trainings addrs x (h ++ [o]) =
  trainings addrs x h + (match o with Train y => if bool_decide (agree addrs x y) then 1 else 0 | _ => 0 end).
Proof. unfold trainings. rewrite count_if_app, count_if_cons, count_if_nil. destruct o; lia. Qed.
Lemma effective_snoc addrs x h o : effective_untrainings addrs x (h ++ [o]) =
  effective_untrainings addrs x h +
  (match o with Untrain y => if bool_decide (agree addrs x y) && (0 <? trainings addrs x h) then 1 else 0 | _ => 0 end).
Proof.
  induction h as [|o' h IH]; cbn [app effective_untrainings].
  - destruct o as [y|y]; [destruct (decide (agree addrs x y)); reflexivity|].
    change (trainings addrs x []) with 0. rewrite andb_false_r. reflexivity.
  - unfold trainings in *. rewrite count_if_cons. pose proof (count_if_range (fun o0 => match o0 with Train y => bool_decide (agree addrs x y) | Untrain _ => false end) h) as Hr.
    destruct o' as [y|y].
    + destruct (decide (agree addrs x y)) as [Ha|Ha]; [rewrite (bool_decide_eq_true_2 _ Ha)|rewrite (bool_decide_eq_false_2 _ Ha)].
      * rewrite count_if_app, count_if_cons, count_if_nil. destruct o as [z|z]; cbv beta iota; [lia|].
        destruct (Z.ltb_spec 0 (1 + count_if (fun o0 => match o0 with Train y => bool_decide (agree addrs x y) | Untrain _ => false end) h)); [|lia].
        rewrite andb_true_r. lia.
      * rewrite IH, Z.add_0_l. reflexivity.
    + rewrite IH, Z.add_0_l. reflexivity.
Qed.
Lemma effective_range addrs x h : 0 <= effective_untrainings addrs x h <= untrainings addrs x h.
Proof.
  unfold untrainings. induction h as [|[y|y] h IH]; cbn [effective_untrainings]; [unfold count_if, len; cbn; lia| |];
    rewrite count_if_cons.
  - destruct (decide _); [|lia].
    pose proof (count_if_range (fun o => match o with Untrain z => bool_decide (agree addrs x z) | _ => false end) h). lia.
  - destruct (bool_decide _); lia.
Qed.
Lemma counts_sum addrs x h : trainings addrs x h + untrainings addrs x h <= len h.
Proof.
  unfold trainings, untrainings. induction h as [|o h IH]; [unfold count_if, len; cbn; lia|].
  rewrite !count_if_cons, len_cons. destruct o; destruct (bool_decide _); lia.
Qed.
Lemma due_range addrs x h : - len h <= trainings addrs x h - effective_untrainings addrs x h <= len h.
Proof.
  pose proof (effective_range addrs x h). pose proof (counts_sum addrs x h).
  assert (0 <= trainings addrs x h) by apply count_if_range. assert (0 <= untrainings addrs x h) by apply count_if_range. lia.
Qed.
Lemma trainings_agree addrs x y h : agree addrs x y -> trainings addrs x h = trainings addrs y h.
Proof.
  intros H. apply count_if_ext. intros [z|z] _; [|reflexivity]. apply bool_decide_ext. split; intros H'.
  - eapply agree_trans; [apply agree_sym, H|exact H'].
  - eapply agree_trans; [exact H|exact H'].
Qed.

(** The content of the cell selected by x. *)
Definition cell (addrs : list Z) (h : list dop) (x : image) : option Z :=
  if trainings addrs x h =? 0 then None else Some (trainings addrs x h - effective_untrainings addrs x h).

Lemma cell_due addrs h x : default 0 (cell addrs h x) = trainings addrs x h - effective_untrainings addrs x h.
Proof.
  unfold cell. destruct (Z.eqb_spec (trainings addrs x h) 0) as [E|]; [|reflexivity]. cbn.
  assert (effective_untrainings addrs x h = 0); [|lia]. unfold trainings in E.
  induction h as [|[y|y] h IH]; cbn [effective_untrainings]; [reflexivity| |]; rewrite count_if_cons in E.
  - pose proof (count_if_range (fun o => match o with Train y => bool_decide (agree addrs x y) | Untrain _ => false end) h).
    destruct (decide (agree addrs x y)) as [Ha|Ha]; [rewrite (bool_decide_eq_true_2 _ Ha) in E; lia|]. apply IH. destruct (bool_decide (agree addrs x y)); lia.
  - apply IH. lia.
Qed.

Lemma cell_snoc addrs h x o : cell addrs (h ++ [o]) x =
  if bool_decide (agree addrs x (op_image o)) then
    match o with
    | Train _ => Some (default 0 (cell addrs h x) + 1)
    | Untrain _ => (fun v => v - 1) <$> cell addrs h x
    end
  else cell addrs h x.
Proof.
  pose proof (cell_due addrs h x) as Hd.
  assert (0 <= trainings addrs x h) by apply count_if_range.
  unfold cell in *. rewrite trainings_snoc, effective_snoc. destruct o as [y|y]; cbn [op_image].
  - destruct (bool_decide (agree addrs x y)).
    + rewrite Hd. destruct (Z.eqb_spec (trainings addrs x h + 1) 0); [lia|]. f_equal. lia.
    + rewrite !Z.add_0_r. reflexivity.
  - rewrite Z.add_0_r. destruct (bool_decide (agree addrs x y)); cbn [andb].
    + destruct (Z.eqb_spec (trainings addrs x h) 0) as [->|]; [reflexivity|].
      destruct (Z.ltb_spec 0 (trainings addrs x h)); [|lia]. cbn. f_equal. lia.
    + rewrite Z.add_0_r. reflexivity.
Qed.
Lemma cell_range addrs h x v : cell addrs h x = Some v -> - len h <= v <= len h.
Proof.
  unfold cell. destruct (_ =? _); [discriminate|]. injection 1 as <-. apply due_range.
Qed.

(** ** One RAM *)
Record same_ram (r0 r : ram) : Prop := {
  sr_addresses : r_addresses r = r_addresses r0;
  sr_base : r_base r = r_base r0;
  sr_iz : r_ignoreZero r = r_ignoreZero r0 }.
Lemma same_index r0 r x : same_ram r0 r -> getIndex r x = getIndex r0 x.
Proof. intros [E1 E2 _]. unfold getIndex. rewrite E1, E2. reflexivity. Qed.
Lemma same_valid r0 r x : same_ram r0 r -> valid_on r x <-> valid_on r0 x.
Proof. intros [E1 E2 _]. unfold valid_on. rewrite E1, E2. reflexivity. Qed.
Lemma same_shape r0 r : same_ram r0 r -> ram_shape r <-> ram_shape r0.
Proof. intros [E1 E2 _]. unfold ram_shape. rewrite E1, E2. reflexivity. Qed.
Lemma same_refl r : same_ram r r. Proof. split; reflexivity. Qed.

Definition cell_state (r0 : ram) (h : list dop) (m : gmap Z Z) : Prop :=
  (forall x i, valid_on r0 x -> getIndex r0 x = Ok i -> m !! i = cell (r_addresses r0) h x) /\
  (forall i v, m !! i = Some v -> exists y, Train y ∈ h /\ valid_on r0 y /\ getIndex r0 y = Ok i).

Definition ram_step (o : dop) (r : ram) : eff ram unit :=
  match o with Train x => ram_train r x | Untrain x => ram_untrain r x end.
Lemma dstep_spec d o : dstep d o =
  match checkEntrySize (d_entrySize d) (im_size (op_image o)) with
  | Ok _ =>
      match int_of (d_count d + (match o with Train _ => 1 | Untrain _ => -1 end)) with
      | Ok c => let '(u, rs) := rams_update (ram_step o) (d_rams d) in (u, Disc (d_entrySize d) c rs)
      | _ => (UB UBOverflow, d)
      end
  | _ => (Throw entry_exn, d)
  end.
Proof. destruct o; reflexivity. Qed.

Lemma cell_state_bound r0 h m i v : ram_shape r0 -> cell_state r0 h m -> m !! i = Some v -> - len h <= v <= len h.
Proof.
  intros Hs [H1 H2] Hi. destruct (H2 i v Hi) as (y & _ & Hy & Ey). eapply cell_range. rewrite <- (H1 y i Hy Ey). exact Hi.
Qed.

Lemma ram_step_spec r0 h r o : ram_shape r0 -> same_ram r0 r -> cell_state r0 h (r_positions r) ->
  valid_on r0 (op_image o) -> len h < INT_MAX ->
  exists m, ram_step o r = (Ok tt, with_positions r m) /\ cell_state r0 (h ++ [o]) m.
Proof.
  intros Hs Hsame Hst Hv Hl. destruct (valid_index r0 _ Hs Hv) as (ds & _ & _ & Ei & _).
  set (i := enc (r_base r0) ds) in *. pose proof Hst as [H1 H2]. pose proof (H1 _ _ Hv Ei) as Hcell.
  assert (forall x j, valid_on r0 x -> getIndex r0 x = Ok j -> bool_decide (agree (r_addresses r0) x (op_image o)) = bool_decide (j = i)) as Hag.
  { intros x j Hx Ex. apply bool_decide_ext. rewrite <- (index_agree r0 x (op_image o)) by assumption. rewrite Ex, Ei.
    split; [injection 1; auto|congruence]. }
  assert (forall x, valid_on r0 x -> getIndex r0 x = Ok i -> cell (r_addresses r0) h x = r_positions r !! i) as Hsamecell.
  { intros x Hx Ex. symmetry. apply H1; assumption. }
  pose proof (cell_state_bound r0 h (r_positions r) i) as Hb.
  destruct o as [y|y]; cbn [op_image ram_step] in *.
  - unfold ram_train. rewrite (same_index _ _ _ Hsame), Ei.
    set (v' := default 0 (r_positions r !! i) + 1).
    exists (<[i := v']> (r_positions r)). split.
    { unfold v'. destruct (r_positions r !! i) as [v|] eqn:E; [|reflexivity]. cbn [default].
      specialize (Hb v Hs Hst eq_refl). unfold INT_MAX, INT_MIN in *. rewrite int_of_ok by (unfold INT_MAX, INT_MIN; lia). reflexivity. }
    split.
    + intros x j Hx Ex. rewrite cell_snoc. cbn [op_image]. rewrite (Hag x j Hx Ex). case_bool_decide as Hj.
      * subst j. rewrite lookup_insert. unfold v'. rewrite (Hsamecell x Hx Ex). reflexivity.
      * rewrite lookup_insert_ne by congruence. apply H1; assumption.
    + intros j v Hj. destruct (decide (j = i)) as [->|Hne].
      * exists y. split; [apply elem_of_app; right; left|]. auto.
      * rewrite lookup_insert_ne in Hj by congruence. destruct (H2 j v Hj) as (z & Hz & ?). exists z. split; [apply elem_of_app; left; exact Hz|assumption].
  - unfold ram_untrain. rewrite (same_index _ _ _ Hsame), Ei.
    destruct (r_positions r !! i) as [v|] eqn:E.
    + exists (<[i := v - 1]> (r_positions r)). split.
      { specialize (Hb v Hs Hst eq_refl). unfold INT_MAX, INT_MIN in *. rewrite int_of_ok by (unfold INT_MAX, INT_MIN; lia). reflexivity. }
      split.
      * intros x j Hx Ex. rewrite cell_snoc. cbn [op_image]. rewrite (Hag x j Hx Ex). case_bool_decide as Hj.
        -- subst j. rewrite lookup_insert, (Hsamecell x Hx Ex). reflexivity.
        -- rewrite lookup_insert_ne by congruence. apply H1; assumption.
      * intros j w Hj. destruct (decide (j = i)) as [->|Hne].
        -- destruct (H2 i v E) as (z & Hz & ?). exists z. split; [apply elem_of_app; left; exact Hz|assumption].
        -- rewrite lookup_insert_ne in Hj by congruence. destruct (H2 j w Hj) as (z & Hz & ?). exists z. split; [apply elem_of_app; left; exact Hz|assumption].
    + exists (r_positions r). split; [destruct r; reflexivity|]. split.
      * intros x j Hx Ex. rewrite cell_snoc. cbn [op_image]. rewrite (Hag x j Hx Ex). case_bool_decide as Hj; [|apply H1; assumption].
        subst j. rewrite (Hsamecell x Hx Ex), E. reflexivity.
      * intros j w Hj. destruct (H2 j w Hj) as (z & Hz & ?). exists z. split; [apply elem_of_app; left; exact Hz|assumption].
Qed.

(** ** The discriminator *)
Definition signed_count (h : list dop) : Z :=
  count_if (fun o => match o with Train _ => true | _ => false end) h -
  count_if (fun o => match o with Untrain _ => true | _ => false end) h.

Definition ram_after (h : list dop) (r0 r : ram) : Prop := same_ram r0 r /\ cell_state r0 h (r_positions r).
Record after (d0 : disc) (h : list dop) (d : disc) : Prop := {
  af_entry : d_entrySize d = d_entrySize d0;
  af_count : d_count d = signed_count h;
  af_rams : Forall2 (ram_after h) (d_rams d0) (d_rams d) }.

Lemma signed_count_snoc h o : signed_count (h ++ [o]) = signed_count h + (match o with Train _ => 1 | Untrain _ => -1 end).
Proof. unfold signed_count. rewrite !count_if_app, !count_if_cons, !count_if_nil. destruct o; lia. Qed.
Lemma signed_count_range h : - len h <= signed_count h <= len h.
Proof.
  unfold signed_count. induction h as [|o h IH]; [unfold count_if, len; cbn; lia|]. rewrite !count_if_cons, len_cons. destruct o; lia.
Qed.

Lemma fresh_after d0 : fresh d0 -> after d0 [] d0.
Proof.
  intros [Hc Hr]. split; [reflexivity|exact Hc|]. induction Hr as [|r rs [_ Hr] H IH]; constructor; [|exact IH].
  split; [apply same_refl|]. split; [|rewrite Hr; intros i v; rewrite lookup_empty; discriminate].
  intros x i _ _. rewrite Hr, lookup_empty. reflexivity.
Qed.

Lemma dstep_after d0 h d o : fresh d0 -> after d0 h d -> valid_image d0 (op_image o) -> len h < INT_MAX ->
  exists d', dstep d o = (Ok tt, d') /\ after d0 (h ++ [o]) d'.
Proof.
  intros [_ Hs] [He Hc Hr] [Hsz Hv] Hl. rewrite dstep_spec, He, Hc. unfold checkEntrySize. rewrite Hsz, Z.eqb_refl.
  pose proof (signed_count_range h) as Hrg. rewrite int_of_ok by (unfold INT_MIN, INT_MAX in *; destruct o; lia).
  assert (exists rs, rams_update (ram_step o) (d_rams d) = (Ok tt, rs) /\ Forall2 (ram_after (h ++ [o])) (d_rams d0) rs) as (rs & E & Hrs).
  { clear He Hc. induction Hr as [|r0 r rs0 rs [Hsame Hst] Hr IH].
    - exists []. split; [reflexivity|constructor].
    - apply Forall_cons in Hs as [[Hs0 _] Hs]. apply Forall_cons in Hv as [Hv0 Hv].
      destruct (ram_step_spec r0 h r o Hs0 Hsame Hst Hv0 Hl) as (m & E & Hm).
      destruct (IH Hs Hv) as (rs' & E' & Hrs'). exists (with_positions r m :: rs'). cbn [rams_update]. rewrite E, E'. split; [reflexivity|].
      constructor; [|exact Hrs']. split; [|exact Hm]. destruct Hsame. split; assumption. }
  rewrite E. eexists. split; [reflexivity|]. split; [reflexivity|cbn [d_count]; rewrite signed_count_snoc; reflexivity|exact Hrs].
Qed.

Lemma run_app d h1 h2 : run d (h1 ++ h2) = ebind (run d h1) (fun _ d' => run d' h2).
Proof. apply efor_app. Qed.

Lemma run_after_gen d0 h0 d h : fresh d0 -> after d0 h0 d -> Forall (fun o => valid_image d0 (op_image o)) h -> len h0 + len h <= INT_MAX ->
  exists d', run d h = (Ok tt, d') /\ after d0 (h0 ++ h) d'.
Proof.
  intros Hf. revert h0 d. induction h as [|o h IH]; intros h0 d Ha Hv Hl.
  - exists d. rewrite app_nil_r. split; [reflexivity|exact Ha].
  - apply Forall_cons in Hv as [Ho Hv]. rewrite len_cons in Hl. pose proof (len_nonneg h).
    destruct (dstep_after d0 h0 d o Hf Ha Ho ltac:(lia)) as (d1 & E & Ha1).
    destruct (IH (h0 ++ [o]) d1 Ha1 Hv) as (d2 & E2 & Ha2).
    { rewrite len_app, len_cons, len_nil. lia. }
    exists d2. unfold run in *. cbn [efor]. rewrite E. cbn [ebind]. rewrite E2, <- app_assoc in *. auto.
Qed.
Theorem run_after d0 h : fresh d0 -> Forall (fun o => valid_image d0 (op_image o)) h -> len h <= INT_MAX ->
  exists d, run d0 h = (Ok tt, d) /\ after d0 h d.
Proof. intros Hf Hv Hl. apply (run_after_gen d0 [] d0 h Hf (fresh_after d0 Hf) Hv). rewrite len_nil. lia. Qed.

(** Votes. *)
Lemma vote_after h r0 r x : ram_shape r0 -> ram_after h r0 r -> valid_on r0 x -> getVote r x = Ok (vote_due r0 h x).
Proof.
  intros Hs [Hsame Hst] Hv. unfold getVote. rewrite (same_index _ _ _ Hsame).
  destruct (valid_index r0 x Hs Hv) as (ds & _ & _ & Ei & _). rewrite Ei. cbn [rbind]. unfold vote_due.
  rewrite (sr_iz _ _ Hsame).
  assert ((enc (r_base r0) ds =? 0) = bool_decide (all_zero (r_addresses r0) x)) as ->.
  { apply eq_true_iff_eq. rewrite Z.eqb_eq, bool_decide_eq_true, <- (index_zero r0 x Hs Hv), Ei.
    split; [congruence|injection 1; auto]. }
  destruct (_ && _); [reflexivity|]. destruct Hst as [H1 _]. rewrite (H1 x _ Hv Ei), <- cell_due.
  destruct (cell _ _ _); reflexivity.
Qed.
Theorem classify_after d0 h d x : fresh d0 -> after d0 h d -> valid_image d0 x ->
  disc_classify d x = Ok ((fun r => vote_due r h x) <$> d_rams d0).
Proof.
  intros [_ Hs] [He _ Hr] [Hsz Hv]. unfold disc_classify, checkEntrySize. rewrite He, Hsz, Z.eqb_refl. cbn [rbind]. clear He Hsz.
  induction Hr as [|r0 r rs0 rs Hra Hr IH]; [reflexivity|]. apply Forall_cons in Hs as [[Hs0 _] Hs]. apply Forall_cons in Hv as [Hv0 Hv].
  cbn [rmapM fmap list_fmap]. rewrite (vote_after h r0 r x Hs0 Hra Hv0). cbn [rbind]. rewrite IH by assumption. reflexivity.
Qed.
