(** Property theorems of C143 (completed wirings) and C20 (whatever the generator). *)
From Verif Require Import Prelude Bytes Utils BinInput Ram Json Fs RamData Disc Synth Rand.
From Verif Require Import UtilsProofs DiscCtorProofs CtorFacts RandProofs SpecWiring Wiring PropsCtor.

(** [m] gives each of the [e / a + 1] RAMs [a] pixels out of 0..e-1, and every pixel to some RAM. *)
Definition completed_wiring (a e : Z) (m : list (list Z)) : Prop :=
  len m = e / a + 1 /\ Forall (fun l => len l = a) m /\ Forall (fun p => 0 <= p < e) (List.concat m) /\ forall p, 0 <= p < e -> p ∈ List.concat m.

Lemma tape_skip js0 xs : forall rest, rand_skip (tape js0) (length xs) (xs ++ rest) = rest.
Proof. induction xs as [|x xs IH]; intros rest; [reflexivity|]. cbn [length app]. apply IH. Qed.
Lemma tape_nth js0 : forall (xs : list Z) i x, xs !! i = Some x -> 0 <= x <= INT_MAX -> rand_nth (tape js0) i xs = x.
Proof.
  induction xs as [|y xs IH]; intros i x Hx H; [discriminate|]. destruct i as [|i]; [injection Hx as ->; unfold rand_nth; cbn [rand_skip tape cr_next fst]; apply Z.mod_small; unfold INT_MAX in H; lia|].
  exact (IH i x Hx H).
Qed.
Lemma concat_len (a : Z) (m : list (list Z)) : Forall (fun l => len l = a) m -> len (List.concat m) = len m * a.
Proof. induction 1 as [|x m Hx _ IH]; [reflexivity|]. cbn [List.concat]. unfold len in *. rewrite app_length. cbn [length]. lia. Qed.
Lemma drawable_complete a e iz base m : 2 <= a <= e -> 2 <= base -> e + a <= INT_MAX -> fits base a -> e mod a <> 0 -> completed_wiring a e m ->
  exists g, rand_ok g /\ forall now st, exists d, fst (disc_new_at g now a e iz true [] [] base st) = Ok d /\ disc_mapping d = m.
Proof.
  intros Ha Hb He Hf Hr (Hl & Hw & Hin & Hall). apply fits_width in Hf. set (pix := Z.of_nat <$> seq 0 (Z.to_nat e)). assert (Hpl : length pix = Z.to_nat e) by (unfold pix; rewrite fmap_length; apply seq_length).
  pose proof (Z.mod_pos_bound e a ltac:(lia)) as Hmod. pose proof (Z.div_mod e a ltac:(lia)) as Hdm. pose proof (concat_len a m Hw) as Hcl. rewrite Hl in Hcl.
  assert (Hsub : pix ⊆+ List.concat m). { apply NoDup_submseteq; [apply pixels_nodup|]. intros x Hx. apply elem_of_list_fmap in Hx as (n & -> & Hn). apply elem_of_seq in Hn. apply Hall. lia. }
  apply submseteq_Permutation in Hsub as (filler & Hp). pose proof (Permutation_length Hp) as Hlen. rewrite app_length, Hpl in Hlen.
  assert (Hfl : len filler = a - e mod a) by (unfold len in *; nia).
  assert (Hfr : Forall (fun p => 0 <= p < e) filler). { rewrite Forall_forall in *. intros x Hx. apply Hin. rewrite Hp. apply elem_of_app. auto. }
  destruct (any_order (length (pix ++ filler) - 1) (pix ++ filler) (List.concat m)) as [js Hjs].
  { rewrite app_length. lia. } { unfold len in *. rewrite app_length. lia. } { symmetry. exact Hp. } { rewrite !drop_ge by (rewrite app_length; lia). reflexivity. }
  exists (tape (filler ++ js)). split; [apply tape_ok|]. intros now st. exists (Disc e 0 (rams_of (List.concat m) a (e / a + 1) iz base)). split.
  2:{ cbn [disc_mapping d_rams]. pose proof (pieces a ((e / a + 1) * a) m iz base []) as P. rewrite Z.div_mul, app_nil_r in P by lia. apply P; [exact Hl|lia|exact Hw]. }
  unfold disc_new_at. rewrite srand_ok by (try apply tape_ok; unfold INT_MAX; lia). cbn [ebind length Nat.eqb negb]. unfold setRAMShuffle_at. cbn [fst].
  assert (Hb1 : true && (0 <? Z.rem e a) = true). { rewrite Z.rem_mod_nonneg by lia. cbn [andb]. apply Z.ltb_lt. lia. }
  unfold setRAMShuffle, extra_indexes. rewrite (proj2 (checkAddressSize_ok e a)) by exact Ha. rewrite (proj2 (checkBase_ok base)) by exact Hb. cbn [rbind]. rewrite Hb1.
  rewrite Z.rem_mod_nonneg, Z.quot_div_nonneg by lia. rewrite int_of_ok by (unfold INT_MIN; lia). cbn [rbind].
  change (cr_seed (tape (filler ++ js)) _) with (filler ++ js). rewrite <- Hfl. replace (Z.to_nat (len filler)) with (length filler) by (unfold len; lia).
  assert (Hfill : rmapM (fun i => randint 0 (e - 1) (dr_rand (draw_of (tape (filler ++ js)) (length filler) (filler ++ js)) i)) (seq 0 (length filler)) = Ok filler).
  { assert (G : forall i, (i < length filler)%nat -> randint 0 (e - 1) (dr_rand (draw_of (tape (filler ++ js)) (length filler) (filler ++ js)) i) = Ok (default 0 (filler !! i))).
    { intros i Hi. destruct (lookup_lt_is_Some_2 filler i Hi) as [x Hx]. rewrite Hx. cbn [default draw_of dr_rand]. pose proof (Forall_lookup_1 _ _ _ _ Hfr Hx) as Hxr. cbv beta in Hxr.
      rewrite (tape_nth _ _ i x) by (try (apply lookup_app_l_Some, Hx); lia). unfold randint. replace (e - 1 - 0 + 1) with e by lia. rewrite int_of_ok by (unfold INT_MIN; lia). cbn [rbind].
      destruct (Z.eqb_spec e 0); [lia|]. rewrite Z.rem_small by lia. rewrite Z.add_0_l, int_of_ok by (unfold INT_MIN; lia). reflexivity. }
    apply DiscCtorProofs.rmapM_ok. apply Forall2_lookup. intros i. destruct (decide (i < length filler)%nat) as [Hi|Hi].
    - rewrite lookup_seq_lt by exact Hi. destruct (lookup_lt_is_Some_2 filler i Hi) as [x Hx]. rewrite Hx. constructor. cbn [Nat.add]. rewrite (G i Hi), Hx. reflexivity.
    - rewrite lookup_seq_ge, lookup_ge_None_2 by lia. constructor. }
  rewrite Hfill. cbn [rbind]. fold pix. unfold draw_of at 1. cbn [dr_shuffle]. rewrite tape_skip. unfold random_shuffle. specialize (Hjs (filler ++ js) []). rewrite app_nil_r in Hjs. rewrite Hjs. cbn [fst].
  rewrite make_rams_spec; [| lia | lia | pose proof (Z.div_pos e a); lia | lia].
  unfold width_ok in Hf. destruct (base =? 2); [destruct (Z.leb_spec a 64)|destruct (Z.leb_spec (base ^ a) LL_MAX)]; (reflexivity || lia).
Qed.

(** With completion (the image is not a multiple of the address size) every wiring that leaves no pixel
    out can be drawn too: it is only the seeding that limits the choice. *)
Theorem C143_completed_partial : forall a e iz base m, 2 <= a <= e -> 2 <= base -> e + a <= INT_MAX -> fits base a -> e mod a <> 0 -> completed_wiring a e m ->
  exists g, rand_ok g /\ forall now st, exists d, fst (disc_new_at g now a e iz true [] [] base st) = Ok d /\ disc_mapping d = m.
Proof. exact drawable_complete. Qed.
Print Assumptions C143_completed_partial.
Example C143_completed_witness : completed_wiring 2 5 [[4; 0]; [2; 2]; [3; 1]] /\ 5 mod 2 <> 0.
Proof.
  split; [|discriminate]. split; [reflexivity|]. split; [repeat constructor|]. split; [repeat constructor; lia|]. intros p Hp. cbn [List.concat app].
  assert (p = 0 \/ p = 1 \/ p = 2 \/ p = 3 \/ p = 4) as [-> |[-> |[-> |[-> | ->]]]] by lia; set_solver.
Qed.

(** The constructor as it runs, seeded with the clock from whatever state the generator is in, builds
    what [disc_new] builds for some values of rand(). *)
Lemma seeded g now a e iz c indexes mapping base st : rand_ok g -> exists dr, valid_draw dr /\ fst (disc_new_at g now a e iz c indexes mapping base st) = disc_new dr a e iz c indexes mapping base.
Proof.
  intros Hg. unfold disc_new_at. rewrite srand_ok by (try assumption; unfold INT_MAX; lia). cbn [ebind]. set (st1 := cr_seed g _).
  exists (draw_of g (extra_indexes e a c) st1). split; [apply draw_of_valid, Hg|]. unfold disc_new. destruct (negb (length mapping =? 0)%nat); [reflexivity|]. destruct (negb (length indexes =? 0)%nat); reflexivity.
Qed.
Theorem C18_seeded : forall g now st a e iz c base,
  rand_ok g -> 2 <= a <= e -> 2 <= base -> e + a <= INT_MAX -> fits base a ->
  exists d, fst (disc_new_at g now a e iz c [] [] base st) = Ok d /\
    d_entrySize d = e /\ d_count d = 0 /\
    len (disc_mapping d) = e / a + (if c && negb (e mod a =? 0) then 1 else 0) /\
    Forall (fun m => len m = a /\ Forall (fun p => 0 <= p < e) m) (disc_mapping d) /\
    (c = true \/ e mod a = 0 -> forall p, 0 <= p < e -> p ∈ List.concat (disc_mapping d)) /\
    (c = false \/ e mod a = 0 -> NoDup (List.concat (disc_mapping d))).
Proof.
  intros g now st a e iz c base Hg Ha Hb He Hf. destruct (seeded g now a e iz c [] [] base st Hg) as (dr & Hd & ->).
  destruct (C18_default_wiring dr a e iz c base Hd Ha Hb He Hf) as (d & E & H1 & H2 & H3 & H4 & H5 & H6). exists d. split; [exact E|]. split; [exact H1|]. split; [exact H2|].
  unfold disc_mapping. split; [unfold len in *; rewrite fmap_length; exact H3|]. split; [apply Forall_fmap; eapply Forall_impl; [exact H4|]; intros r (K1 & K2 & _); split; [exact K1|exact K2]|]. split; [|exact H6].
  intros Hc p Hp. specialize (H5 Hc p Hp). apply Exists_exists in H5 as (r & Hr & Hpr). apply elem_of_list_In, in_concat. exists (r_addresses r). split; [apply elem_of_list_In, elem_of_list_fmap; eauto|apply elem_of_list_In, Hpr].
Qed.
Print Assumptions C18_seeded.
Theorem C19_seeded : forall g now st a e iz c indexes base,
  rand_ok g -> indexes <> [] -> len indexes <= INT_MAX -> 2 <= a <= e -> 2 <= base -> fits base a ->
  indexes ≡ₚ (Z.of_nat <$> seq 0 (Z.to_nat e)) ->
  exists d, fst (disc_new_at g now a e iz c indexes [] base st) = Ok d /\ d_entrySize d = e /\ d_count d = 0 /\ len (disc_mapping d) = e / a /\
    forall k m, disc_mapping d !! k = Some m -> len m = a /\ forall j, (j < Z.to_nat a)%nat -> m !! j = indexes !! (k * Z.to_nat a + j)%nat.
Proof.
  intros g now st a e iz c indexes base Hg H1 H2 H3 H4 H5 H6. destruct (seeded g now a e iz c indexes [] base st Hg) as (dr & _ & ->).
  destruct (C19_index_wiring dr a e iz c indexes base H1 H2 H3 H4 H5 H6) as (d & E & K1 & K2 & K3 & K4). exists d. split; [exact E|]. split; [exact K1|]. split; [exact K2|].
  unfold disc_mapping. split; [unfold len in *; rewrite fmap_length; exact K3|]. intros k m Hk. rewrite list_lookup_fmap in Hk. destruct (d_rams d !! k) as [r|] eqn:Er; [|discriminate]. injection Hk as <-. destruct (K4 k r Er) as (_ & _ & _ & K & K'). split; [exact K|exact K'].
Qed.
Print Assumptions C19_seeded.
Theorem C20_seeded : forall g now st a e iz c indexes mapping base,
  rand_ok g -> mapping <> [] -> Forall (fun m => len m <= INT_MAX) mapping -> 2 <= base -> Forall (fun m => fits base (len m)) mapping ->
  exists d, fst (disc_new_at g now a e iz c indexes mapping base st) = Ok d /\ d_entrySize d = e /\ d_count d = 0 /\ disc_mapping d = mapping.
Proof.
  intros g now st a e iz c indexes mapping base Hg H1 H2 H3 H4. destruct (seeded g now a e iz c indexes mapping base st Hg) as (dr & _ & ->).
  destruct (C20_mapping_wiring dr a e iz c indexes mapping base H1 H2 H3 H4) as (d & E & K1 & K2 & K3 & _). exists d. auto.
Qed.
Print Assumptions C20_seeded.
(** Non-vacuity: an explicit mapping wins over a list of indexes. *)
Example C20_seeded_witness : rand_ok (tape [5; 1]) /\ match fst (disc_new_at (tape [5; 1]) 17 2 4 false true [3; 2; 1; 0] [[0; 2]; [1; 3]] 2 []) with Ok d => disc_mapping d | _ => [] end = [[0; 2]; [1; 3]].
Proof. split; [apply tape_ok|]. vm_compute. reflexivity. Qed.
