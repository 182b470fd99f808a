(** Mental images after a history. *)
From Verif Require Import Prelude Bytes Utils BinInput Ram Disc SpecDisc.
From Verif Require Import BytesProofs UtilsProofs TextProofs DiscCtorProofs RamProofs DiscProofs MentalProofs.

Lemma cell_state_det r0 h m m' : cell_state r0 h m -> cell_state r0 h m' -> m = m'.
Proof.
  intros [H1 H2] [H1' H2']. apply map_eq. intros i. destruct (m !! i) as [v|] eqn:E.
  - destruct (H2 i v E) as (y & _ & Hy & Ey). rewrite <- E, (H1 y i Hy Ey), (H1' y i Hy Ey). reflexivity.
  - destruct (m' !! i) as [v|] eqn:E'; [|reflexivity].
    destruct (H2' i v E') as (y & _ & Hy & Ey). rewrite <- E, <- E', (H1 y i Hy Ey), (H1' y i Hy Ey). reflexivity.
Qed.
Lemma cell_state_ext r0 h h' m m' : (forall x, cell (r_addresses r0) h x = cell (r_addresses r0) h' x) ->
  cell_state r0 h m -> cell_state r0 h' m' -> m = m'.
Proof.
  intros Hc [H1 H2] [H1' H2']. apply map_eq. intros i. destruct (m !! i) as [v|] eqn:E.
  - destruct (H2 i v E) as (y & _ & Hy & Ey). rewrite <- E, (H1 y i Hy Ey), (H1' y i Hy Ey). apply Hc.
  - destruct (m' !! i) as [v|] eqn:E'; [|reflexivity].
    destruct (H2' i v E') as (y & _ & Hy & Ey). rewrite <- E, <- E', (H1 y i Hy Ey), (H1' y i Hy Ey), Hc. reflexivity.
Qed.

(** Images trained in a history. *)
Definition trained (h : list dop) : list image := omap (fun o => match o with Train x => Some x | _ => None end) h.
Lemma trained_app h1 h2 : trained (h1 ++ h2) = trained h1 ++ trained h2.
Proof. apply omap_app. Qed.
Lemma exists_trained addrs y h : Exists (agree addrs y) (trained h) <-> 0 < trainings addrs y h.
Proof.
  unfold trainings. rewrite count_if_pos, Exists_exists. split.
  - intros (z & Hz & Ha). apply elem_of_list_omap in Hz as ([w|w] & Hw & E); [|discriminate]. injection E as ->.
    exists (Train z). split; [exact Hw|]. apply bool_decide_eq_true_2, Ha.
  - intros ([w|w] & Hw & E); [|discriminate]. exists w. apply bool_decide_eq_true_1 in E. split; [|exact E].
    apply elem_of_list_omap. exists (Train w). auto.
Qed.

Lemma net_seen addrs p h : forall s1 s2, (forall y, y ∈ s1 <-> y ∈ s2) -> net_active addrs p s1 h = net_active addrs p s2 h.
Proof.
  induction h as [|[y|y] h IH]; intros s1 s2 Hs; cbn [net_active]; [reflexivity| |].
  - f_equal. apply IH. intros z. rewrite !elem_of_cons, Hs. reflexivity.
  - rewrite (IH s1 s2 Hs). f_equal.
    assert (bool_decide (Exists (agree addrs y) s1) = bool_decide (Exists (agree addrs y) s2)) as ->; [|reflexivity].
    apply bool_decide_ext. rewrite !Exists_exists. setoid_rewrite Hs. reflexivity.
Qed.
Lemma net_snoc addrs p h o : forall seen, net_active addrs p seen (h ++ [o]) = net_active addrs p seen h +
  match o with
  | Train y => if on p y then 1 else 0
  | Untrain y => if on p y && bool_decide (Exists (agree addrs y) (seen ++ trained h)) then -1 else 0
  end.
Proof.
  induction h as [|o' h IH]; intros seen; cbn [app net_active].
  - rewrite app_nil_r. destruct o; cbn [net_active]; lia.
  - destruct o' as [y|y]; rewrite IH; [|change (trained (Untrain y :: h)) with (trained h); lia].
    change (trained (Train y :: h)) with (y :: trained h).
    destruct o as [z|z]; [lia|].
    assert (bool_decide (Exists (agree addrs z) ((y :: seen) ++ trained h)) = bool_decide (Exists (agree addrs z) (seen ++ y :: trained h))) as ->; [|lia].
    apply bool_decide_ext. rewrite !Exists_exists. split; intros (w & Hw & Ha); exists w; (split; [|exact Ha]); clear -Hw; set_solver.
Qed.

Lemma lit_valid r x j a i : ram_shape r -> small r -> valid_on r x -> getIndex r x = Ok i -> r_addresses r !! j = Some a ->
  lit_digit r j i = on a x.
Proof.
  intros Hs Hsm Hv Hi Hj. destruct (valid_index r x Hs Hv) as (ds & Hr & Hd & Ei & Hrg). rewrite Ei in Hi. injection Hi as <-.
  unfold lit_digit. unfold small in Hsm. rewrite s32_id by (unfold INT_MIN, INT_MAX in *; lia).
  pose proof (Forall2_length _ _ _ Hr) as Hl. rewrite Hl, digits_enc; [|apply Hs|exact Hd].
  destruct (Forall2_lookup_l _ _ _ _ _ Hr Hj) as (d & Hdj & Ed). rewrite Hdj. unfold on. rewrite Ed.
  pose proof (Forall_lookup_1 _ _ _ _ Hd Hdj) as Hd'. cbn in Hd'.
  destruct (Z.ltb_spec 0 d).
  - rewrite bool_decide_eq_false_2; [reflexivity|]. injection 1. lia.
  - rewrite bool_decide_eq_true_2; [reflexivity|]. f_equal. lia.
Qed.

Lemma share_same r0 r j : same_ram r0 r -> share r j = share r0 j.
Proof. intros [E1 E2 _]. unfold share, lit_digit. rewrite E1, E2. reflexivity. Qed.

Lemma history_sums r0 h : ram_shape r0 -> r_positions r0 = ∅ -> Forall (fun o => valid_on r0 (op_image o)) h -> len h <= INT_MAX ->
  exists m, cell_state r0 h m /\ msum (fun _ v => Z.abs v) m <= len h /\
    (small r0 -> forall j a, r_addresses r0 !! j = Some a -> msum (share r0 j) m = net_active (r_addresses r0) a [] h).
Proof.
  intros Hs H0. induction h as [|o h IH] using rev_ind; intros Hv Hl.
  - exists ∅. split; [split; [intros; rewrite lookup_empty; reflexivity|intros i v; rewrite lookup_empty; discriminate]|].
    split; [rewrite msum_empty; unfold len; cbn; lia|]. intros. apply msum_empty.
  - apply Forall_app in Hv as [Hv Ho]. apply Forall_cons in Ho as [Ho _]. rewrite len_app, len_cons, len_nil in *.
    destruct IH as (m & Hst & Habs & Hnet); [exact Hv|lia|].
    destruct (ram_step_spec r0 h (with_positions r0 m) o Hs) as (m' & E & Hst'); [split; reflexivity|exact Hst|exact Ho|lia|].
    exists m'. split; [exact Hst'|].
    destruct (valid_index r0 _ Hs Ho) as (ds & _ & _ & Ei & _). set (i := enc (r_base r0) ds) in *.
    pose proof (proj1 Hst _ _ Ho Ei) as Hcell.
    pose proof (fun v => cell_state_bound r0 h m i v Hs Hst) as Hbound.
    assert (getIndex (with_positions r0 m) (op_image o) = Ok i) as Ei' by exact Ei.
    assert (forall j a, small r0 -> r_addresses r0 !! j = Some a -> lit_digit r0 j i = on a (op_image o)) as Hlit.
    { intros j a Hsm Hj. eapply lit_valid; eauto. }
    destruct o as [y|y]; cbn [ram_step op_image] in *.
    + assert (m' = <[i := default 0 (m !! i) + 1]> m) as ->.
      { unfold ram_train in E. rewrite Ei' in E. cbn [with_positions r_positions] in E.
        destruct (m !! i) as [v|] eqn:Em; [|injection E as <-; reflexivity]. cbn.
        destruct (int_of_cases (v + 1)) as [Ev|Ev]; rewrite Ev in E; [|discriminate]. injection E as <-. reflexivity. }
      split.
      * rewrite msum_insert. destruct (m !! i); cbn; lia.
      * intros Hsm j a Hj. rewrite msum_insert, net_snoc, (Hnet Hsm j a Hj). unfold share. rewrite (Hlit j a Hsm Hj).
        destruct (on a y); destruct (m !! i); cbn; lia.
    + unfold ram_untrain in E. rewrite Ei' in E. cbn [with_positions r_positions] in E.
      assert (bool_decide (Exists (agree (r_addresses r0) y) ([] ++ trained h)) = bool_decide (is_Some (m !! i))) as Hex.
      { apply bool_decide_ext. cbn [app]. rewrite exists_trained, Hcell. unfold cell.
        clear Hbound Hlit Ei Ei'.
        assert (0 <= trainings (r_addresses r0) y h) by apply count_if_range.
        destruct (Z.eqb_spec (trainings (r_addresses r0) y h) 0) as [->|].
        - split; [lia|]. intros [? ?]. discriminate.
        - split; [eauto|]. intros _. lia. }
      destruct (m !! i) as [v|] eqn:Em.
      * destruct (int_of_cases (v - 1)) as [Ev|Ev]; rewrite Ev in E; [|discriminate]. injection E as <-.
        rewrite (bool_decide_eq_true_2 (is_Some (Some v))) in Hex by eauto. split.
        -- rewrite msum_insert, Em. lia.
        -- intros Hsm j a Hj. rewrite msum_insert, net_snoc, (Hnet Hsm j a Hj), Em, Hex, andb_true_r. unfold share. rewrite (Hlit j a Hsm Hj).
           destruct (on a y); lia.
      * injection E as <-. rewrite (bool_decide_eq_false_2 (is_Some None)) in Hex by (intros [? ?]; discriminate). split; [lia|].
        intros Hsm j a Hj. rewrite net_snoc, (Hnet Hsm j a Hj), Hex, andb_false_r. lia.
Qed.

Lemma ram_after_sums h r0 r : ram_shape r0 -> r_positions r0 = ∅ -> Forall (fun o => valid_on r0 (op_image o)) h -> len h <= INT_MAX ->
  ram_after h r0 r -> mvol r <= len h /\
    (small r0 -> pieces_of r = (fun a => (a, net_active (r_addresses r0) a [] h)) <$> r_addresses r0).
Proof.
  intros Hs H0 Hv Hl [Hsame Hst]. destruct (history_sums r0 h Hs H0 Hv Hl) as (m & Hst' & H1 & H2).
  rewrite (cell_state_det _ _ _ _ Hst' Hst) in *. split; [exact H1|]. intros Hsm. unfold pieces_of.
  rewrite (sr_addresses _ _ Hsame). apply list_eq. intros j. rewrite list_lookup_imap, list_lookup_fmap.
  destruct (r_addresses r0 !! j) as [a|] eqn:E; [|reflexivity]. cbn. rewrite (share_same _ _ _ Hsame), (H2 Hsm j a E). reflexivity.
Qed.

Lemma net_range addrs p h : forall seen, - len h <= net_active addrs p seen h <= len h.
Proof.
  induction h as [|[y|y] h IH]; intros seen; cbn [net_active]; [unfold len; cbn; lia| |]; rewrite len_cons.
  - specialize (IH (y :: seen)). destruct (on p y); lia.
  - specialize (IH seen). destruct (on p y && _); lia.
Qed.

Lemma vol_app l1 l2 : vol (l1 ++ l2) = vol l1 + vol l2. Proof. apply lsum_app. Qed.
Lemma pieces_vol r n : Forall (fun q => Z.abs q.2 <= n) (pieces_of r) -> 0 <= n -> vol (pieces_of r) <= n * len (r_addresses r).
Proof.
  intros H Hn. rewrite <- (pieces_fst r). induction H as [|[a v] ps Hq H IH]; [unfold vol, len; cbn; lia|].
  unfold vol in *. cbn [lsum fmap list_fmap]. rewrite len_cons. cbn in Hq. fold (fmap (M:=list) (fst (A:=Z) (B:=Z)) ps). lia.
Qed.

(** Volume of the pieces without smallness: each share is at most the absolute volume. *)
Lemma msum_abs f m : (forall a v, Z.abs (f a v) <= Z.abs v) -> Z.abs (msum f m) <= msum (fun _ v => Z.abs v) m.
Proof.
  intros Hf. unfold msum. induction (map_to_list m) as [|[a v] l IH]; cbn [lsum]; [lia|]. specialize (Hf a v). lia.
Qed.
Lemma pieces_abs r : Forall (fun q => Z.abs q.2 <= mvol r) (pieces_of r).
Proof.
  apply Forall_forall. intros [a v] Hin. unfold pieces_of in Hin. apply elem_of_lookup_imap in Hin as (j & b & E & _).
  injection E as -> ->. cbn. apply msum_abs. intros c w. unfold share. destruct (lit_digit r j c); lia.
Qed.

Lemma after_facts d0 h d : fresh d0 -> Forall (fun o => valid_image d0 (op_image o)) h -> len h <= INT_MAX -> after d0 h d ->
  disc_mapping d = disc_mapping d0 /\
  Forall (fun r => 2 <= r_base r /\ mvol r <= len h) (d_rams d) /\
  vol (List.concat (pieces_of <$> d_rams d)) <= len h * total_inputs d0 /\
  (Forall small (d_rams d0) -> List.concat (pieces_of <$> d_rams d) =
     List.concat ((fun r => (fun a => (a, net_active (r_addresses r) a [] h)) <$> r_addresses r) <$> d_rams d0)).
Proof.
  intros [_ Hs] Hv Hl [_ _ Hr]. unfold total_inputs, disc_mapping.
  assert (Forall (fun o => Forall (fun r => valid_on r (op_image o)) (d_rams d0)) h) as Hv'.
  { eapply Forall_impl; [exact Hv|]. intros o [_ H]. exact H. }
  clear Hv. induction Hr as [|r0 r rs0 rs Ha Hr IH].
  - split; [reflexivity|]. split; [constructor|]. split; [unfold vol, len; cbn; lia|reflexivity].
  - apply Forall_cons in Hs as [[Hs0 H0] Hs].
    destruct IH as (E1 & E2 & E3 & E4); [exact Hs|eapply Forall_impl; [exact Hv'|]; intros o H; apply Forall_cons in H; apply H|].
    destruct (ram_after_sums h r0 r Hs0 H0) as [M1 M2]; [|exact Hl|exact Ha|].
    { eapply Forall_impl; [exact Hv'|]. intros o H. apply Forall_cons in H. apply H. }
    destruct Ha as [Hsame _]. rewrite !fmap_cons. cbn [List.concat].
    split; [f_equal; [apply Hsame|exact E1]|]. split; [|split].
    + constructor; [|exact E2]. split; [rewrite (sr_base _ _ Hsame); apply Hs0|exact M1].
    + rewrite vol_app, len_app. pose proof (pieces_vol r (len h)) as Hp.
      assert (vol (pieces_of r) <= len h * len (r_addresses r)).
      { apply Hp; [|apply len_nonneg]. eapply Forall_impl; [apply pieces_abs|]. cbn. intros q Hq. lia. }
      rewrite (sr_addresses _ _ Hsame) in H. rewrite Z.mul_add_distr_l.
      lia.
    + intros Hsm. apply Forall_cons in Hsm as [Hsm0 Hsm]. rewrite (M2 Hsm0), <- (E4 Hsm). reflexivity.
Qed.

Definition mental_due (d0 : disc) (h : list dop) (p : Z) : Z :=
  at_pos p (List.concat ((fun r => (fun a => (a, net_active (r_addresses r) a [] h)) <$> r_addresses r) <$> d_rams d0)).

Theorem mental_after iter d0 h d : good_iter iter -> fresh d0 -> 0 <= d_entrySize d0 -> wired_inside d0 ->
  Forall (fun o => valid_image d0 (op_image o)) h -> len h <= INT_MAX -> len h * total_inputs d0 <= INT_MAX -> after d0 h d ->
  exists l, disc_mental iter d = Ok l /\ len l = d_entrySize d0 /\
    (forall p, 0 <= p < d_entrySize d0 -> l !! Z.to_nat p = Some (at_pos p (List.concat (pieces_of <$> d_rams d)))) /\
    (Forall small (d_rams d0) -> forall p, 0 <= p < d_entrySize d0 -> l !! Z.to_nat p = Some (mental_due d0 h p)).
Proof.
  intros Hi Hf He Hw Hv Hl Hb Ha. destruct (after_facts d0 h d Hf Hv Hl Ha) as (E1 & E2 & E3 & E4).
  pose proof (af_entry _ _ _ Ha) as Ee.
  destruct (mental_spec iter d Hi) as (l & El & Hll & Hg).
  - rewrite Ee. exact He.
  - apply wired_concat. rewrite E1, Ee. apply wired_concat, Hw.
  - eapply Forall_impl; [exact E2|]. cbn. intros r [? ?]. lia.
  - lia.
  - rewrite Ee in *. exists l. split; [exact El|]. split; [exact Hll|]. split; [exact Hg|].
    intros Hsm p Hp. rewrite (Hg p Hp), (E4 Hsm). reflexivity.
Qed.

(** ** Reading the law *)
Lemma at_pos_fmap p (f : Z -> Z) l : at_pos p ((fun a => (a, f a)) <$> l) = count_if (fun a => a =? p) l * f p.
Proof.
  unfold at_pos. induction l as [|a l IH]; [reflexivity|]. rewrite fmap_cons, count_if_cons. cbn [lsum]. rewrite IH.
  destruct (Z.eqb_spec a p) as [->|]; lia.
Qed.
Lemma mental_due_law d0 h p : mental_due d0 h p = mental_law d0 h p.
Proof.
  unfold mental_due, mental_law. induction (d_rams d0) as [|r rs IH]; [reflexivity|]. rewrite !fmap_cons. cbn [List.concat].
  unfold at_pos in *. rewrite lsum_app, IH. cbn [zsum foldr]. unfold zsum. f_equal. apply at_pos_fmap.
Qed.
Lemma net_train addrs p xs : forall seen, net_active addrs p seen (Train <$> xs) = active p xs.
Proof.
  unfold active. induction xs as [|x xs IH]; intros seen; [reflexivity|]. rewrite fmap_cons, count_if_cons. cbn [net_active].
  rewrite IH. reflexivity.
Qed.
Lemma mental_law_train d0 xs p : mental_law d0 (Train <$> xs) p = wires d0 p * active p xs.
Proof.
  unfold mental_law, wires, disc_mapping. induction (d_rams d0) as [|r rs IH]; [reflexivity|]. rewrite !fmap_cons. cbn [List.concat zsum foldr].
  rewrite count_if_app, net_train. unfold zsum in IH. rewrite IH. lia.
Qed.
