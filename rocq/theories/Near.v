(** Lemmas for C160: images that differ in few pixels get nearly the same votes. *)
From Verif Require Import Prelude Bytes Utils BinInput Bleaching Ram Disc DataSet Wisard SpecDisc SpecBleach SpecWisard SpecNear.
From Verif Require Import BytesProofs UtilsProofs TextProofs BleachProofs DiscCtorProofs CtorFacts RamProofs DiscProofs DiscFacts WisardProofs WisardFacts Recall.

Lemma trainings_agree addrs x y h : agree addrs x y -> trainings addrs x h = trainings addrs y h /\ effective_untrainings addrs x h = effective_untrainings addrs y h.
Proof.
  intros H. assert (Hb : forall z, bool_decide (agree addrs x z) = bool_decide (agree addrs y z)).
  { intros z. apply bool_decide_ext. split; intros H'; [eapply agree_trans; [apply agree_sym, H|exact H']|eapply agree_trans; [exact H|exact H']]. }
  assert (Hc : forall (A : Type) (P Q : A -> bool) l, (forall a, P a = Q a) -> count_if P l = count_if Q l).
  { intros A P Q l E. unfold count_if. f_equal. apply list_filter_iff. intros a. rewrite E. reflexivity. }
  split; [apply Hc; intros []; auto|]. induction h as [|[z|z] h IH]; cbn [effective_untrainings]; [reflexivity| |exact IH].
  destruct (decide (agree addrs x z)) as [D|D], (decide (agree addrs y z)) as [D'|D'].
  - apply Hc. intros []; auto.
  - exfalso. apply D'. eapply agree_trans; [apply agree_sym, H|exact D].
  - exfalso. apply D. eapply agree_trans; [exact H|exact D'].
  - exact IH.
Qed.
Lemma vote_agree r h x y : agree (r_addresses r) x y -> vote_due r h x = vote_due r h y.
Proof.
  intros H. unfold vote_due. destruct (trainings_agree _ x y h H) as [-> ->]. replace (bool_decide (all_zero (r_addresses r) x)) with (bool_decide (all_zero (r_addresses r) y)); [reflexivity|].
  apply bool_decide_ext. unfold all_zero, agree in *. rewrite !Forall_forall in *. split; intros K a Ha; [rewrite (H a Ha); auto|rewrite <- (H a Ha); auto].
Qed.

(** RAMs that read a position of D. *)
Lemma count_if_cons {A} (P : A -> bool) a l : count_if P (a :: l) = (if P a then 1 else 0) + count_if P l.
Proof. unfold count_if. rewrite filter_cons. destruct (P a); [rewrite decide_True by reflexivity; rewrite len_cons; reflexivity|rewrite decide_False by discriminate; lia]. Qed.
Lemma touched_le (rs : list ram) (D : list Z) x y : Forall (fun r => Forall (fun p => im_get x p <> im_get y p -> p ∈ D) (r_addresses r)) rs ->
  count_if (fun r => negb (bool_decide (agree (r_addresses r) x y))) rs <= len (filter (fun a => a ∈ D) (List.concat (r_addresses <$> rs))).
Proof.
  induction 1 as [|r rs Hr _ IH]; [apply Z.le_refl|]. rewrite count_if_cons, fmap_cons. cbn [List.concat]. rewrite filter_app, len_app.
  destruct (bool_decide_reflect (agree (r_addresses r) x y)) as [H|H]; cbn [negb].
  - pose proof (len_nonneg (filter (fun a => a ∈ D) (r_addresses r))). lia.
  - unfold agree in H. apply not_Forall_Exists in H; [|apply _]. apply Exists_exists in H as (p & Hp & Hd). rewrite Forall_forall in Hr.
    assert (Hin : p ∈ filter (fun a => a ∈ D) (r_addresses r)) by (apply elem_of_list_filter; split; [apply Hr; assumption|exact Hp]).
    destruct (filter (fun a => a ∈ D) (r_addresses r)) as [|q qs]; [inversion Hin|]. rewrite len_cons. pose proof (len_nonneg qs). lia.
Qed.
Lemma zsum_cons a l : zsum (a :: l) = a + zsum l. Proof. reflexivity. Qed.
Lemma wires_ge (D : list Z) (W : list Z) : len (filter (fun a => a ∈ D) W) <= zsum ((fun p => count_if (fun a => a =? p) W) <$> D).
Proof.
  induction W as [|a W IH].
  - change (0 <= zsum ((fun p => count_if (fun a => a =? p) []) <$> D)). induction D as [|p D IH]; [apply Z.le_refl|]. rewrite fmap_cons, zsum_cons. change (0 <= 0 + zsum ((fun p => count_if (fun a => a =? p) []) <$> D)). lia.
  - rewrite filter_cons. assert (E : zsum ((fun p => count_if (fun b => b =? p) (a :: W)) <$> D) = zsum ((fun p => count_if (fun b => b =? p) W) <$> D) + count_if (fun p => a =? p) D).
    { clear IH. induction D as [|p D IH]; [reflexivity|]. rewrite !fmap_cons, !zsum_cons. rewrite IH, !count_if_cons. lia. }
    rewrite E. pose proof (count_if_range (fun p => a =? p) D). case_decide as Ha; [|lia]. rewrite len_cons.
    assert (1 <= count_if (fun p => a =? p) D) by (apply Recall.count_if_pos; exists a; split; [exact Ha|apply Z.eqb_refl]). lia.
Qed.

(** Counts of two vote lists. *)
Lemma tally_apart {A} (f g : A -> Z) b rs (P : A -> bool) : (forall r, r ∈ rs -> P r = false -> f r = g r) ->
  - count_if P rs <= tally b (f <$> rs) - tally b (g <$> rs) <= count_if P rs.
Proof.
  induction rs as [|r rs IH]; intros H; [change (- 0 <= 0 - 0 <= 0); lia|]. unfold tally in *. rewrite !fmap_cons, !count_if_cons. specialize (IH (fun r' Hr => H r' (elem_of_list_further _ _ _ Hr))).
  destruct (P r) eqn:Ep.
  - destruct (b <=? f r), (b <=? g r); lia.
  - rewrite (H r (elem_of_list_here _ _) Ep). lia.
Qed.

(** Distinct wires, or wires that cover every position. *)
Lemma distinct_bound (D W : list Z) : NoDup W -> len (filter (fun a => a ∈ D) W) <= len D.
Proof.
  intros H. unfold len. apply inj_le. apply submseteq_length. apply NoDup_submseteq; [apply NoDup_filter, H|]. intros p Hp. apply elem_of_list_filter in Hp. apply Hp.
Qed.
Lemma cover_bound (n : Z) (P : Z -> Prop) `{!forall p, Decision (P p)} (W : list Z) : 0 <= n -> (forall p, 0 <= p < n -> p ∈ W) ->
  len (filter (fun a => a ∈ filter P (Z.of_nat <$> seq 0 (Z.to_nat n))) W) <= len (filter P (Z.of_nat <$> seq 0 (Z.to_nat n))) + (len W - n).
Proof.
  intros Hn HW. set (S := Z.of_nat <$> seq 0 (Z.to_nat n)). assert (HS : NoDup S) by (apply NoDup_fmap_2; [apply _|apply NoDup_seq]).
  assert (Hin : forall p, p ∈ S -> 0 <= p < n) by (intros p Hp; apply elem_of_list_fmap in Hp as (k & -> & Hk); apply elem_of_seq in Hk; lia).
  assert (Hsplit : forall (Q : Z -> Prop) `{!forall p, Decision (Q p)} l, len l = len (filter Q l) + len (filter (fun p => ~ Q p) l)).
  { intros Q ? l. induction l as [|p l IH]; [reflexivity|]. rewrite !filter_cons. repeat case_decide; try tauto; rewrite !len_cons; lia. }
  pose proof (Hsplit (fun a => a ∈ filter P S) _ W) as E1. pose proof (Hsplit P _ S) as E2.
  assert (Hsub : len (filter (fun p => ~ P p) S) <= len (filter (fun a => ~ (a ∈ filter P S)) W)).
  { unfold len. apply inj_le, submseteq_length, NoDup_submseteq; [apply NoDup_filter, HS|]. intros p Hp. apply elem_of_list_filter in Hp as [Hnp Hp]. apply elem_of_list_filter. split; [|apply HW, Hin, Hp].
    intros K. apply elem_of_list_filter in K. tauto. }
  assert (ES : len S = n) by (unfold S, len; rewrite fmap_length, seq_length; lia). cbn beta in E1, E2. lia.
Qed.

(** How far the wiring of a label reaches from the positions where two images differ. *)
Lemma built_reach w n l d x y : configured w n -> can_learn w n l -> built w n l d ->
  len (filter (fun a => a ∈ differing n x y) (List.concat (r_addresses <$> d_rams d))) <= reach w n l x y /\
  Forall (fun r => Forall (fun p => im_get x p <> im_get y p -> p ∈ differing n x y) (r_addresses r)) (d_rams d).
Proof.
  intros ((Hn0 & Hn) & Hb & Ha & _) Hl (dr & Hdr & E). unfold can_learn in Hl. unfold construct_discriminator in E. unfold reach.
  assert (Hdiff : forall p, 0 <= p < n -> im_get x p <> im_get y p -> p ∈ differing n x y).
  { intros p Hp H. apply elem_of_list_filter. split; [exact H|]. apply elem_of_list_fmap. exists (Z.to_nat p). split; [lia|]. apply elem_of_seq. lia. }
  destruct (w_mapping w !! l) as [m|].
  - rewrite setRAMByMapping_ok in E; auto.
    + injection E as <-. cbn [d_rams]. assert (Em : r_addresses <$> rams_map m (w_ignoreZero w) (w_base w) = m) by (unfold rams_map; rewrite <- list_fmap_compose; apply list_fmap_id).
      split; [rewrite Em; apply wires_ge|]. unfold rams_map. apply Forall_fmap. eapply Forall_impl; [exact Hl|]. intros addrs (_ & _ & Hin). unfold compose. cbn [r_addresses].
      eapply Forall_impl; [exact Hin|]. intros p Hp. apply Hdiff, Hp.
    + eapply Forall_impl; [exact Hl|]; cbn; tauto.
    + eapply Forall_impl; [exact Hl|]. intros addrs (_ & H & _). apply fits_width, H.
  - destruct Hl as (Han & Hsum & Hf & Hix). unfold spare. destruct (negb (Nat.eqb (length (w_indexes w)) 0)) eqn:E0.
    + assert (Hne : w_indexes w <> []) by (destruct (w_indexes w); [discriminate|congruence]). rewrite decide_False by exact Hne.
      destruct Hix as [Hix|Hix]; [congruence|].
      assert (Hlen : len (w_indexes w) = n). { unfold len. rewrite (Permutation_length Hix), fmap_length, seq_length. lia. }
      assert (Hnd : NoDup (w_indexes w)) by (rewrite Hix; apply NoDup_fmap_2; [apply _|apply NoDup_seq]).
      assert (Hg : good_indexes (w_indexes w) n).
      { split; [exact Hlen|]. split; [|exact Hnd]. apply Forall_forall. intros i Hi. rewrite Hix in Hi. apply elem_of_list_fmap in Hi as (k & -> & Hk). apply elem_of_seq in Hk. lia. }
      apply fits_width in Hf. rewrite setRAMByIndex_spec in E by (assumption || lia).
      assert (Hd : d = Disc n 0 (rams_of (w_indexes w) (w_addressSize w) (n / w_addressSize w) (w_ignoreZero w) (w_base w))).
      { unfold width_ok in Hf. destruct (w_base w =? 2); [destruct (Z.leb_spec (w_addressSize w) 64)|destruct (Z.leb_spec (w_base w ^ w_addressSize w) LL_MAX)]; first [lia|congruence]. }
      subst d. cbn [d_rams]. rewrite rams_of_mapping, concat_sub by lia.
      assert (Hsub : forall p, p ∈ take (Z.to_nat (n / w_addressSize w) * Z.to_nat (w_addressSize w)) (w_indexes w) -> 0 <= p < n).
      { intros p Hp. assert (p ∈ w_indexes w) as Hp' by (rewrite <- (take_drop (Z.to_nat (n / w_addressSize w) * Z.to_nat (w_addressSize w)) (w_indexes w)); apply elem_of_app; left; exact Hp).
        rewrite Hix in Hp'. apply elem_of_list_fmap in Hp' as (k & -> & Hk). apply elem_of_seq in Hk. lia. }
      split.
      * rewrite Z.add_0_r. apply distinct_bound. rewrite <- (take_drop (Z.to_nat (n / w_addressSize w) * Z.to_nat (w_addressSize w)) (w_indexes w)) in Hnd. apply NoDup_app in Hnd. apply Hnd.
      * apply Forall_forall. intros r Hr. apply Forall_forall. intros p Hp. apply Hdiff, Hsub. rewrite <- (concat_sub (w_indexes w) (w_addressSize w) (Z.to_nat (n / w_addressSize w))) by lia.
        rewrite <- (rams_of_mapping _ _ _ (w_ignoreZero w) (w_base w)). apply elem_of_list_In, in_concat. exists (r_addresses r). split; [|apply elem_of_list_In, Hp].
        apply elem_of_list_In, elem_of_list_fmap. exists r. auto.
    + assert (He0 : w_indexes w = []) by (destruct (w_indexes w); [reflexivity|discriminate]). rewrite decide_True by exact He0.
      destruct (shuffle_layout dr (w_addressSize w) n (w_ignoreZero w) (w_completeAddressing w) (w_base w) Hdr Han Hb Hsum Hf) as (d' & Hd & He & Hc & Hk & Hr & Hw & Hnd).
      unfold disc_new in Hd. cbn [length Nat.eqb negb] in Hd. assert (d' = d) as -> by congruence.
      split; [|eapply Forall_impl; [exact Hr|]; intros r (_ & Hin & _); eapply Forall_impl; [exact Hin|]; intros p Hp; apply Hdiff, Hp].
      assert (Hlen : forall rs, Forall (fun r => len (r_addresses r) = w_addressSize w /\ Forall (fun p => 0 <= p < n) (r_addresses r) /\ r_base r = w_base w /\ r_ignoreZero r = w_ignoreZero w /\ r_positions r = ∅) rs -> len (List.concat (r_addresses <$> rs)) = len rs * w_addressSize w).
      { induction 1 as [|r rs Hx _ IH]; [reflexivity|]. rewrite fmap_cons. cbn [List.concat]. rewrite len_app, len_cons, IH. destruct Hx as (-> & _). lia. }
      destruct (w_completeAddressing w && negb (n mod w_addressSize w =? 0)) eqn:Ex.
      * apply andb_true_iff in Ex as [Ec Em]. rewrite Ec in *. assert (Hm : n mod w_addressSize w <> 0) by (intros Em'; rewrite Em' in Em; discriminate).
        pose proof (cover_bound n (fun p => im_get x p <> im_get y p) (List.concat (r_addresses <$> d_rams d)) Hn0) as B. fold (differing n x y) in B.
        rewrite (Hlen _ Hr), Hk in B. pose proof (Z_div_mod_eq_full n (w_addressSize w)). etransitivity; [apply B|nia].
        intros p Hp. specialize (Hw (or_introl eq_refl) p Hp). apply Exists_exists in Hw as (r & Hir & Hpr). apply elem_of_list_In, in_concat. exists (r_addresses r). split; [|apply elem_of_list_In, Hpr].
        apply elem_of_list_In, elem_of_list_fmap. exists r. auto.
      * rewrite Z.add_0_r. apply distinct_bound, Hnd. apply andb_false_iff in Ex as [Ec|Em]; [left; exact Ec|right]. apply negb_false_iff, Z.eqb_eq in Em. exact Em.
Qed.
