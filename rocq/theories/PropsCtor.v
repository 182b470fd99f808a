(** Property theorems C18-C25 and C81: construction of a discriminator. *)
From Verif Require Import Prelude Bytes Base64 Utils BinInput Float32 Ram Json Fs RamData Disc SpecBin SpecDisc.
From Verif Require Import DiscCtorProofs CtorFacts JsonNF RamProofs.

(** [fits base n] (CtorFacts.v): n <= 64 when base = 2, base^n fits a signed 64-bit integer
    otherwise. The bound [e + a <= INT_MAX] keeps the int arithmetic of the constructor exact. *)

(** C18: wiring of a discriminator built without mapping and indexes, whatever the random choices. *)
Theorem C18_default_wiring : forall dr a e iz c base,
  valid_draw dr -> 2 <= a <= e -> 2 <= base -> e + a <= INT_MAX -> fits base a ->
  exists d, disc_new dr a e iz c [] [] base = Ok d /\
    d_entrySize d = e /\ d_count d = 0 /\
    len (d_rams d) = e / a + (if c && negb (e mod a =? 0) then 1 else 0) /\
    Forall (fun r => len (r_addresses r) = a /\ Forall (fun p => 0 <= p < e) (r_addresses r) /\
                     r_base r = base /\ r_ignoreZero r = iz /\ r_positions r = ∅) (d_rams d) /\
    (c = true \/ e mod a = 0 -> forall p, 0 <= p < e -> Exists (fun r => p ∈ r_addresses r) (d_rams d)) /\
    (c = false \/ e mod a = 0 -> NoDup (List.concat (r_addresses <$> d_rams d))).
Proof. exact shuffle_layout. Qed.
Print Assumptions C18_default_wiring.
(** Reversed order, extra positions drawn: 7 pixels in RAMs of 3. *)
Example C18_witness : valid_draw (Draw (fun _ => 12) (fun l => rev l)) /\
  (2 <= 3 <= 7) /\ (7 + 3 <= INT_MAX) /\ fits 2 3 /\
  (exists d, disc_new (Draw (fun _ => 12) (fun l => rev l)) 3 7 false true [] [] 2 = Ok d /\ len (d_rams d) = 3).
Proof.
  split; [split; [intros; cbn; unfold INT_MAX; lia|intros l; cbn; symmetry; apply Permutation_rev]|].
  split; [lia|]. split; [unfold INT_MAX; lia|]. split; [split; lia|].
  eexists. split; vm_compute; reflexivity.
Qed.

(** C19: RAM k reads indexes[k*a .. (k+1)*a-1]. *)
Theorem C19_index_wiring : forall dr a e iz c indexes base,
  indexes <> [] -> len indexes <= INT_MAX -> 2 <= a <= e -> 2 <= base -> fits base a ->
  indexes ≡ₚ (Z.of_nat <$> seq 0 (Z.to_nat e)) ->
  exists d, disc_new dr a e iz c indexes [] base = Ok d /\
    d_entrySize d = e /\ d_count d = 0 /\ len (d_rams d) = e / a /\
    forall k r, d_rams d !! k = Some r ->
      r_base r = base /\ r_ignoreZero r = iz /\ r_positions r = ∅ /\ len (r_addresses r) = a /\
      forall j, (j < Z.to_nat a)%nat -> r_addresses r !! j = indexes !! (k * Z.to_nat a + j)%nat.
Proof. exact index_layout. Qed.
Print Assumptions C19_index_wiring.
Example C19_witness : [4; 0; 2; 1; 3] ≡ₚ (Z.of_nat <$> seq 0 (Z.to_nat 5)) /\
  (exists d, disc_new some_draw 2 5 false true [4; 0; 2; 1; 3] [] 2 = Ok d /\ disc_mapping d = [[4; 0]; [2; 1]]).
Proof.
  split.
  - apply NoDup_Permutation; [compute_done| compute_done|]. intros x. cbn. set_solver.
  - eexists. split; vm_compute; reflexivity.
Qed.

(** C20: a mapping is used verbatim, and it is what both saved texts report. *)
Theorem C20_mapping_wiring : forall dr a e iz c indexes mapping base,
  mapping <> [] -> Forall (fun m => len m <= INT_MAX) mapping ->
  2 <= base -> Forall (fun m => fits base (len m)) mapping ->
  exists d, disc_new dr a e iz c indexes mapping base = Ok d /\
    d_entrySize d = e /\ d_count d = 0 /\ r_addresses <$> d_rams d = mapping /\
    Forall (fun r => r_base r = base /\ r_ignoreZero r = iz /\ r_positions r = ∅) (d_rams d).
Proof. exact mapping_layout. Qed.
Print Assumptions C20_mapping_wiring.
Theorem C20_jsonConfig_mapping : forall d, exists j, disc_jsonConfig d = Ok j /\
  (let* m := jfield j (lit "mapping") in jget_intss m) = jget_intss (jintss (r_addresses <$> d_rams d)) /\
  jfield j (lit "mapping") = Ok (JArr ((fun r => JArr (JInt <$> r_addresses r)) <$> d_rams d)).
Proof. exact jsonConfig_mapping. Qed.
Print Assumptions C20_jsonConfig_mapping.
Theorem C20_json_mapping : forall iter rnd f d huge path j f',
  disc_json iter rnd f d huge path = (Ok j, f') ->
  jfield j (lit "mapping") = Ok (JArr ((fun r => JArr (JInt <$> r_addresses r)) <$> d_rams d)).
Proof. exact json_mapping. Qed.
Print Assumptions C20_json_mapping.
Example C20_witness : exists d, disc_new some_draw 2 4 true true [] [[3; 0; 1]; [2; 2]] 3 = Ok d /\ disc_mapping d = [[3; 0; 1]; [2; 2]].
Proof. eexists. split; vm_compute; reflexivity. Qed.

(** C21: exactly these parameters are rejected, always with the package's exception.
    [bad_parameters] is defined in CtorFacts.v. *)
Theorem C21_validation : forall dr a e iz c indexes mapping base,
  valid_draw dr -> len indexes <= INT_MAX -> Forall (fun m => len m <= INT_MAX) mapping -> e + a <= INT_MAX ->
  ((exists x, disc_new dr a e iz c indexes mapping base = Throw x) <-> bad_parameters a e indexes mapping base) /\
  (forall x, disc_new dr a e iz c indexes mapping base = Throw x -> exists m, x = EWisard m) /\
  disc_new dr a e iz c indexes mapping base <> Hang.
Proof. exact throw_exactly. Qed.
Print Assumptions C21_validation.
Example C21_witness : bad_parameters 2 3 [0; 1; 1] [] 2 /\ ~ bad_parameters 2 3 [0; 2; 1] [] 2.
Proof.
  split.
  - right. right. split; [reflexivity|]. right. right. right. left. split; [discriminate|]. right. right.
    intros H. inversion H as [|? ? _ H2]. inversion H2 as [|? ? H3 _]. apply H3. left.
  - intros [H|[(H & _)|(_ & [H|[H|[H|[(_ & [H|[H|H]])|(_ & H)]]]])]]; try lia; try congruence.
    + apply H. reflexivity.
    + repeat match goal with H : Exists _ _ |- _ => inversion H; clear H; subst; try lia end.
    + apply H. compute_done.
Qed.

(** C22: for base 3 the limit is not enforced: the check itself overflows (undefined). *)
Theorem C22_limit_refuted : exists a e base, 2 <= a <= e /\ 2 <= base /\ W64 < base ^ a /\
  disc_new some_draw a e false true [] [] base = UB UBOverflow.
Proof. exact limit_not_enforced. Qed.
Print Assumptions C22_limit_refuted.
(** Every discriminator that is returned respects the limit, for every base.
    Missing: for base <> 2 an excessive size is undefined behaviour instead of an exception. *)
Theorem C22_limit_partial : forall dr a e iz c indexes mapping d, valid_draw dr -> len indexes <= INT_MAX ->
  Forall (fun m => len m <= INT_MAX) mapping ->
  forall base, disc_new dr a e iz c indexes mapping base = Ok d ->
  Forall (fun r => r_base r = base /\ base ^ len (r_addresses r) <= W64) (d_rams d).
Proof. exact limit_base2. Qed.
Print Assumptions C22_limit_partial.
Example C22_witness : exists d, disc_new some_draw 39 39 false true [] [] 3 = Ok d.
Proof. eexists. vm_compute. reflexivity. Qed.

(** C23: a negative index is accepted. *)
Theorem C23_negative_index_refuted : exists d, disc_new some_draw 2 4 false true [0; 1; 2; -1] [] 2 = Ok d.
Proof. exact negative_index_accepted. Qed.
Print Assumptions C23_negative_index_refuted.
(** What acceptance does guarantee. Missing: non-negativity. *)
Theorem C23_indexes_partial : forall dr a e iz c indexes base d,
  indexes <> [] -> len indexes <= INT_MAX -> valid_draw dr ->
  disc_new dr a e iz c indexes [] base = Ok d ->
  len indexes = e /\ NoDup indexes /\ Forall (fun i => i < e) indexes /\
  (Forall (fun i => 0 <= i) indexes -> indexes ≡ₚ (Z.of_nat <$> seq 0 (Z.to_nat e))).
Proof. exact accepted_indexes. Qed.
Print Assumptions C23_indexes_partial.

(** C24: a mapping position outside the entry leads to an out-of-bounds read of a list image. *)
Theorem C24_mapping_refuted : exists d, disc_new some_draw 2 2 false true [] [[0; 7]] 2 = Ok d /\
  fst (disc_train d (vec_image [1; 1])) = UB UBIndex /\ disc_classify d (vec_image [1; 1]) = UB UBIndex.
Proof. exact mapping_unchecked. Qed.
Print Assumptions C24_mapping_refuted.
(** With BinInput images no access is out of bounds, whatever the wiring: an exception is
    thrown. Missing: list images. *)
Theorem C24_bininput_safe_partial : forall d b, bin_made b ->
  ((exists v, disc_classify d (bin_image b) = Ok v) \/ (exists e, disc_classify d (bin_image b) = Throw e)) /\
  fst (disc_train d (bin_image b)) <> UB UBIndex.
Proof. exact bin_safe. Qed.
Print Assumptions C24_bininput_safe_partial.
Example C24_witness : exists d, disc_new some_draw 2 2 false true [] [[0; 7]] 2 = Ok d /\
  bin_made (bin_of_size 2) /\ fst (disc_train d (bin_image (bin_of_size 2))) = Throw index_exn.
Proof. eexists. split; [vm_compute; reflexivity|]. split; [apply made_size; unfold bin_limit; lia|vm_compute; reflexivity]. Qed.

(** C25: in a discriminator returned by the constructor, two images whose read pixels are in
    0..base-1 select the same cell of a RAM exactly when they agree on all its positions. *)
Theorem C25_addresses_injective : forall d r x y, constructed d -> r ∈ d_rams d ->
  valid_image d x -> valid_image d y ->
  (exists i, getIndex r x = Ok i) /\
  (getIndex r x = getIndex r y <-> agree (r_addresses r) x y).
Proof. exact addresses_injective. Qed.
Print Assumptions C25_addresses_injective.
Example C25_witness : exists d, constructed d /\ valid_image d (vec_image [2; 0; 1; 2]) /\ valid_image d (vec_image [2; 1; 1; 2]).
Proof.
  eexists. split.
  - exists some_draw, 2, 4, false, true, [], [[0; 2]; [1; 3]], 3.
    split; [apply some_draw_valid|]. unfold is_int, INT_MIN, INT_MAX. cbn [len]. split; [lia|]. split; [lia|]. split; [lia|].
    split; [vm_compute; congruence|]. split; [repeat constructor; vm_compute; congruence|]. vm_compute. reflexivity.
  - split; (split; [vm_compute; reflexivity|]);
      repeat constructor; eexists; (split; [vm_compute; reflexivity|cbn; lia]).
Qed.

(** C81: the RAM count helper used for the activation degree and the confidence check. *)
Theorem C81_number_of_rams : forall dr a e iz c base d, valid_draw dr ->
  disc_new dr a e iz c [] [] base = Ok d -> calculateNumberOfRams e a c = Ok (len (d_rams d)).
Proof. exact number_of_rams. Qed.
Print Assumptions C81_number_of_rams.
Example C81_witness : exists d, disc_new some_draw 3 10 false true [] [] 2 = Ok d /\ len (d_rams d) = 4.
Proof. eexists. split; vm_compute; reflexivity. Qed.
