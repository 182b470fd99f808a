(** Lemmas for C139. *)
From Verif Require Import Prelude Bytes Utils BinInput Bleaching Ram Disc DataSet Wisard SpecDisc SpecBleach SpecWisard SpecRename.
From Verif Require Import BleachProofs WisardProofs WisardFacts ClusOne.

Lemma renaming_inj f g : renaming f g -> Inj (=) (=) f.
Proof. intros H a b E. rewrite <- (H a), <- (H b), E. reflexivity. Qed.

Section rename.
Context (f g : str -> str) (Hr : renaming f g).
Let Hf : Inj (=) (=) f := renaming_inj f g Hr.
Local Existing Instance Hf.

Lemma kget {A} (m : gmap str A) l : (kmap f m : gmap str A) !! f l = m !! l.
Proof using Hr. apply (lookup_kmap f). Qed.
Lemma kins {A} (m : gmap str A) l a : <[f l := a]> (kmap f m : gmap str A) = kmap f (<[l := a]> m).
Proof using Hr. symmetry. apply (kmap_insert f). Qed.
Lemma rename_with w m : rename f (with_discriminators w m) = with_discriminators (rename f w) (kmap f m).
Proof. reflexivity. Qed.

Definition elift (r : eff wisard unit) : eff wisard unit := (fst r, rename f (snd r)).

Lemma construct_rename dr w l n : construct_discriminator dr (rename f w) (f l) n = construct_discriminator dr w l n.
Proof using Hr. unfold construct_discriminator. cbn [w_mapping rename]. rewrite kget. reflexivity. Qed.
Lemma make_rename lhs dr w l n : makeDiscriminator lhs dr (rename f w) (f l) n = elift (makeDiscriminator lhs dr w l n).
Proof using Hr.
  unfold makeDiscriminator. rewrite construct_rename. destruct (construct_discriminator dr w l n); cbn [w_discriminators rename]; unfold elift; cbn [fst snd]; rewrite ?kins; try reflexivity.
  destruct lhs; rewrite ?kins; reflexivity.
Qed.
Lemma at_rename h w l : at_label h (rename f w) (f l) = elift (at_label h w l).
Proof using Hr.
  unfold at_label. cbn [w_discriminators rename]. rewrite kget. destruct (w_discriminators w !! l) as [d|]; [|reflexivity]. destruct (h d) as [o d']. unfold elift. cbn [fst snd]. rewrite kins. reflexivity.
Qed.
Lemma bind_rename (m : eff wisard unit) (k k' : unit -> wisard -> eff wisard unit) : (forall u w, k' u (rename f w) = elift (k u w)) -> ebind (elift m) k' = elift (ebind m k).
Proof. intros H. destruct m as [[u| | |] w]; cbn; [apply H|reflexivity..]. Qed.
Lemma train1_rename lhs env w x l : wisard_train1 lhs (fun l => env (g l)) (rename f w) x (f l) = elift (wisard_train1 lhs env w x l).
Proof using Hr.
  unfold wisard_train1. cbn [w_discriminators rename]. rewrite kget. destruct (w_discriminators w !! l); [apply at_rename|]. rewrite Hr.
  rewrite (make_rename lhs (env l) w l). apply bind_rename. intros _ w'. apply at_rename.
Qed.
Lemma train_loop_rename lhs env : forall xs ls w, wisard_train_loop lhs (fun l => env (g l)) (rename f w) xs (f <$> ls) = elift (wisard_train_loop lhs env w xs ls).
Proof using Hr.
  induction xs as [|x xs IH]; intros [|l ls] w; try reflexivity. rewrite fmap_cons. cbn [wisard_train_loop]. rewrite train1_rename. apply bind_rename. intros _ w'. apply IH.
Qed.
Lemma leave1_rename w x l : leaveOneOut (rename f w) x (f l) = elift (leaveOneOut w x l).
Proof using Hr. unfold leaveOneOut. cbn [w_discriminators rename]. rewrite kget. destruct (w_discriminators w !! l); [apply at_rename|reflexivity]. Qed.
Lemma leave_loop_rename : forall xs ls w, leaveMoreOut_loop (rename f w) xs (f <$> ls) = elift (leaveMoreOut_loop w xs ls).
Proof using Hr.
  induction xs as [|x xs IH]; intros [|l ls] w; try reflexivity. rewrite fmap_cons. cbn [leaveMoreOut_loop]. rewrite leave1_rename. apply bind_rename. intros _ w'. apply IH.
Qed.
Lemma len_fmap {A B} (h : A -> B) (l : list A) : len (h <$> l) = len l.
Proof. unfold len. rewrite fmap_length. reflexivity. Qed.
Lemma call_rename lhs w c : wcall_run lhs (rename f w) (rename_call f g c) = elift (wcall_run lhs w c).
Proof using Hr.
  destruct c as [env xs ls|x l|xs ls]; cbn [rename_call wcall_run].
  - unfold wisard_train. destruct xs as [|x xs]; [reflexivity|]. rewrite len_fmap. cbn [w_addressSize w_completeAddressing w_confidence rename].
    destruct (calculateNumberOfRams _ _ _); try reflexivity. destruct (checkConfidence _ _); try reflexivity. destruct (checkInputSizes _ _); try reflexivity. apply train_loop_rename.
  - apply leave1_rename.
  - unfold leaveMoreOut. rewrite len_fmap. destruct (checkInputSizes _ _); try reflexivity. apply leave_loop_rename.
Qed.
Lemma run_rename lhs : forall cs w, wrun lhs (rename f w) (rename_call f g <$> cs) = elift (wrun lhs w cs).
Proof using Hr.
  induction cs as [|c cs IH]; intros w; [reflexivity|]. rewrite fmap_cons. unfold wrun in *. cbn [efor]. rewrite call_rename. apply bind_rename. intros _ w'. apply IH.
Qed.

(** Votes: independent of the order when all succeed. *)
Lemma votes_rename D x v : all_votes D x = Ok v -> all_votes (kmap f D) x = Ok (kmap f v).
Proof using Hr.
  intros H. unfold all_votes in *. pose proof (keyed_inv (fun d => disc_classify d x) D v H) as Hk. apply (keyed_ok (fun d => disc_classify d x)). intros k.
  destruct (kmap f D !! k) as [d|] eqn:E.
  - apply (lookup_kmap_Some f) in E as (l & -> & El). specialize (Hk l). rewrite El in Hk. rewrite (lookup_kmap f).
    destruct Hk as (b & Hb & Hv). eauto.
  - apply (lookup_kmap_None f). intros l ->. rewrite (lookup_kmap f) in E. specialize (Hk l). rewrite E in Hk. exact Hk.
Qed.
End rename.

Lemma candidates_rename f g w x cand : renaming f g -> (w_bleachingActivated w = true -> mono f (w_discriminators w)) ->
  wisard_candidates w x = Ok cand -> wisard_candidates (rename f w) x = Ok (kmap f cand).
Proof.
  intros Hr Hm H. pose proof (renaming_inj f g Hr) as Hf. unfold wisard_candidates in *. cbn [w_discriminators w_bleachingActivated w_searchBestConfidence w_confidence rename].
  destruct (all_votes (w_discriminators w) x) as [v| | |] eqn:E; try discriminate. rewrite (votes_rename f g Hr _ _ _ E). cbn [rbind] in *.
  destruct (w_bleachingActivated w).
  - assert (Hmv : mono f v).
    { unfold all_votes in E. pose proof (keyed_inv (fun d => disc_classify d x) _ _ E) as Hk. intros a b Ha Hb. apply (Hm eq_refl).
      - specialize (Hk a). destruct (w_discriminators w !! a); [eauto|]. rewrite Hk in Ha. destruct Ha. discriminate.
      - specialize (Hk b). destruct (w_discriminators w !! b); [eauto|]. rewrite Hk in Hb. destruct Hb. discriminate. }
    pose proof (bleach_renamed f v true (w_searchBestConfidence w) (w_confidence w) Hmv) as E2. unfold renamed in E2. rewrite E2, H. reflexivity.
  - rewrite bleach_off in *. injection H as <-. f_equal. unfold tallies. symmetry. apply (kmap_fmap f).
Qed.
Lemma candidates_keys w x cand : wisard_candidates w x = Ok cand -> forall k, is_Some (cand !! k) <-> is_Some (w_discriminators w !! k).
Proof.
  intros H k. unfold wisard_candidates in H. destruct (all_votes (w_discriminators w) x) as [v| | |] eqn:E; try discriminate. cbn [rbind] in H.
  assert (Hd : is_Some (cand !! k) <-> is_Some (v !! k)).
  { assert (Hb : exists b, cand = tallies b v).
    { clear -H. unfold bleaching_make, makeWithConfidence, makeConfidenceless in H.
      assert (G : forall fuel act c b, bleach_loop fuel v act c b = Ok cand -> exists b', cand = tallies b' v).
      { induction fuel as [|fuel IH]; intros act c b; cbn [bleach_loop]; [discriminate|]. destruct act; cbn [negb]; [|intros [= <-]; exists b; apply counts_at_tallies].
        destruct (int_of (b + 1)); cbn [rbind]; try discriminate. destruct (_ && _); [apply IH|intros [= <-]; exists b; apply counts_at_tallies]. }
      destruct (w_searchBestConfidence w); eapply G; exact H. }
    destruct Hb as (b & ->). unfold tallies. rewrite lookup_fmap, fmap_is_Some. reflexivity. }
  rewrite Hd. unfold all_votes in E. pose proof (keyed_inv (fun d => disc_classify d x) _ _ E k) as Hk. destruct (w_discriminators w !! k).
  - destruct Hk as (b & _ & ->). split; eauto.
  - rewrite Hk. split; intros [? ?]; discriminate.
Qed.
Lemma classify_rename f g w x k : renaming f g -> mono f (w_discriminators w) -> w_discriminators w <> ∅ ->
  wisard_classify1 w x = Ok k -> wisard_classify1 (rename f w) x = Ok (f k).
Proof.
  intros Hr Hm Hne H. pose proof (renaming_inj f g Hr) as Hf. unfold wisard_classify1 in *. destruct (wisard_candidates w x) as [cand| | |] eqn:E; try discriminate. cbn [rbind] in H. injection H as <-.
  rewrite (candidates_rename f g w x cand Hr (fun _ => Hm) E). cbn [rbind]. f_equal. pose proof (candidates_keys w x cand E) as Hk.
  assert (Hmc : mono f cand) by (intros a b Ha Hb; apply Hm; apply Hk; assumption).
  unfold getBiggestCandidate. pose proof (sorted_renamed f cand Hmc) as Es. unfold renamed in Es. rewrite Es.
  assert (Hs : sorted_items cand <> []).
  { intros Es0. apply Hne. apply map_empty. intros l. destruct (w_discriminators w !! l) as [d|] eqn:Ed; [|reflexivity]. exfalso.
    assert (is_Some (cand !! l)) as (v & Hv) by (apply Hk; eauto). apply sorted_items_elem in Hv. rewrite Es0 in Hv. inversion Hv. }
  assert (Hnn : forall k v, (k, v) ∈ sorted_items cand -> 0 <= v).
  { intros l v Hin. apply sorted_items_elem in Hin. pose proof (Hk l). clear -E Hin. unfold wisard_candidates in E. destruct (all_votes _ _) as [vs| | |]; try discriminate. cbn [rbind] in E.
    unfold bleaching_make, makeWithConfidence, makeConfidenceless in E.
    assert (G : forall fuel act c b, bleach_loop fuel vs act c b = Ok cand -> exists b', cand = tallies b' vs).
    { induction fuel as [|fuel IH]; intros act c b; cbn [bleach_loop]; [discriminate|]. destruct act; cbn [negb]; [|intros [= <-]; exists b; apply counts_at_tallies].
      destruct (int_of (b + 1)); cbn [rbind]; try discriminate. destruct (_ && _); [apply IH|intros [= <-]; exists b; apply counts_at_tallies]. }
    assert (exists b, cand = tallies b vs) as (b & ->) by (destruct (w_searchBestConfidence w); eapply G; exact E). eapply tallies_nonneg. exact Hin. }
  destruct (sorted_items cand) as [|[k0 v0] r]; [congruence|]. rewrite fmap_cons. cbn [biggest_scan fst snd].
  assert (H0 : (0 <=? v0) = true) by (apply Z.leb_le, (Hnn k0); left). rewrite H0.
  assert (G : forall l big k, biggest_scan ((fun x : str * Z => (f x.1, x.2)) <$> l) big (f k) = f (biggest_scan l big k)).
  { clear. induction l as [|[k v] l IH]; intros big k0; [reflexivity|]. cbn. destruct (big <=? v); apply IH. }
  apply G.
Qed.
