From Verif Require Import Prelude Bytes Base64 Utils BinInput Ram Json Fs RamData.
From Verif Require Import Base64Proofs BytesProofs TextProofs RamDataProofs.

Lemma u64_inj_int a b : INT_MIN <= a <= INT_MAX -> INT_MIN <= b <= INT_MAX -> u64 a = u64 b -> a = b.
Proof.
  unfold u64, W64, INT_MIN, INT_MAX. intros Ha Hb E.
  pose proof (Z.div_mod a 18446744073709551616 ltac:(lia)).
  pose proof (Z.div_mod b 18446744073709551616 ltac:(lia)).
  pose proof (Z.mod_pos_bound a 18446744073709551616 ltac:(lia)). lia.
Qed.

(** Value a reader sees at (r, address). *)
Definition peek_entry (h : handle) (r a : Z) : Z :=
  match h !! r with Some m => default 0 (m !! u64 a) | None => 0 end.

Lemma handle_get_value h r a : fst (handle_get h r a) = peek_entry h r a.
Proof.
  unfold handle_get, touch, peek_entry. destruct (h !! r) as [m|] eqn:E; cbn.
  - destruct (m !! u64 a); reflexivity.
  - rewrite lookup_empty. reflexivity.
Qed.

Lemma handle_set_entry h r a v r' a' :
  peek_entry (handle_set h r a v) r' a' = if decide (r' = r /\ u64 a' = u64 a) then v else peek_entry h r' a'.
Proof.
  unfold handle_set, touch, peek_entry.
  destruct (h !! r) as [m|] eqn:E; cbn; destruct (decide (r' = r /\ u64 a' = u64 a)) as [[-> Ea]|Hne].
  - rewrite lookup_insert, Ea, lookup_insert. reflexivity.
  - destruct (decide (r' = r)) as [->|Hr].
    + rewrite lookup_insert, E. rewrite lookup_insert_ne by (intros Ha; apply Hne; auto). reflexivity.
    + rewrite lookup_insert_ne by congruence. reflexivity.
  - rewrite lookup_insert, Ea, lookup_insert. reflexivity.
  - destruct (decide (r' = r)) as [->|Hr].
    + rewrite lookup_insert, E. rewrite lookup_insert_ne by (intros Ha; apply Hne; auto). rewrite lookup_empty. reflexivity.
    + rewrite lookup_insert_ne by congruence. rewrite lookup_insert_ne by congruence. reflexivity.
Qed.

Theorem handle_set_get h r a v : fst (handle_get (handle_set h r a v) r a) = v.
Proof. rewrite handle_get_value, handle_set_entry. destruct (decide _) as [|H]; [reflexivity|]. exfalso. apply H. auto. Qed.

Theorem handle_set_other h r a v r' a' : INT_MIN <= a <= INT_MAX -> INT_MIN <= a' <= INT_MAX ->
  (r', a') <> (r, a) -> fst (handle_get (handle_set h r a v) r' a') = fst (handle_get h r' a').
Proof.
  intros Ha Ha' Hne. rewrite !handle_get_value, handle_set_entry.
  destruct (decide _) as [[-> E]|]; [|reflexivity]. exfalso. apply Hne. f_equal. apply u64_inj_int; assumption.
Qed.

(** compare *)
Lemma included_spec m o : ram_included m o = true <-> m ⊆ o.
Proof.
  unfold ram_included. rewrite forallb_forall. rewrite map_subseteq_spec. split.
  - intros H a v Hm. specialize (H (a, v)). cbn in H.
    destruct (o !! a) as [w|].
    + apply elem_of_map_to_list, elem_of_list_In in Hm. apply H in Hm. f_equal. lia.
    + apply elem_of_map_to_list, elem_of_list_In in Hm. apply H in Hm. discriminate.
  - intros H [a v] Hin. apply elem_of_list_In, elem_of_map_to_list in Hin. cbn. rewrite (H a v Hin). apply Z.eqb_refl.
Qed.

Lemma subseteq_size_eq {A} (m o : gmap Z A) : m ⊆ o -> size m = size o -> m = o.
Proof.
  intros Hsub Hs. apply (anti_symm (⊆)); [exact Hsub|].
  assert (dom m = dom o) as Hd.
  { assert (dom m ⊆ dom o) by (apply subseteq_dom, Hsub).
    destruct (decide (dom o ⊆ dom m)) as [Hle|Hle]; [set_solver|].
    exfalso. assert (dom m ⊂ dom o) as Hlt by (split; assumption).
    apply subset_size in Hlt. rewrite !size_dom in Hlt. lia. }
  apply map_subseteq_spec. intros a v Ho.
  assert (a ∈ dom m) as Hin by (rewrite Hd; eapply elem_of_dom_2, Ho).
  apply elem_of_dom in Hin as [w Hw]. rewrite map_subseteq_spec in Hsub. pose proof (Hsub a w Hw). congruence.
Qed.

Theorem handle_compare_spec h o : handle_compare h o = true <-> h = o.
Proof.
  unfold handle_compare. split.
  - destruct (Nat.eqb_spec (size h) (size o)) as [Hs|]; [|discriminate]. cbn [negb].
    rewrite forallb_forall. intros H. apply subseteq_size_eq; [|exact Hs].
    apply map_subseteq_spec. intros r m Hm. specialize (H (r, m)). cbn in H.
    pose proof Hm as Hin. apply elem_of_map_to_list, elem_of_list_In in Hin. apply H in Hin.
    destruct (o !! r) as [mo|]; [|discriminate]. apply andb_prop in Hin as [Hz Hincl].
    apply Nat.eqb_eq in Hz. apply included_spec in Hincl. f_equal. symmetry. apply subseteq_size_eq; assumption.
  - intros <-. rewrite Nat.eqb_refl. cbn [negb]. apply forallb_forall. intros [r m] Hin.
    apply elem_of_list_In, elem_of_map_to_list in Hin. cbn. rewrite Hin, Nat.eqb_refl.
    apply included_spec. reflexivity.
Qed.

(** reads of present entries *)
Lemma handle_get_present h r a m v : h !! r = Some m -> m !! u64 a = Some v -> handle_get h r a = (v, h).
Proof. intros Hr Ha. unfold handle_get, touch. rewrite Hr, Ha. reflexivity. Qed.
Lemma handle_get_ram_present h r m : h !! r = Some m -> handle_get_ram h r = (m, h).
Proof. intros Hr. unfold handle_get_ram, touch. rewrite Hr. reflexivity. Qed.

(** data() with a negative index present never ends *)
Definition stuck_inv (h : handle) (i : Z) : Prop :=
  0 <= i < W32 /\ h !! (-1) <> None /\ forall j, 0 <= j < i -> h !! s32 j <> None.

Lemma s32_inj j k : 0 <= j < W32 -> 0 <= k < W32 -> s32 j = s32 k -> j = k.
Proof.
  unfold s32, W32. intros Hj Hk E.
  pose proof (Z.div_mod (j + 2147483648) 4294967296 ltac:(lia)).
  pose proof (Z.div_mod (k + 2147483648) 4294967296 ltac:(lia)).
  pose proof (Z.mod_pos_bound (j + 2147483648) 4294967296 ltac:(lia)).
  pose proof (Z.mod_pos_bound (k + 2147483648) 4294967296 ltac:(lia)). lia.
Qed.

Lemma stuck_size h i : stuck_inv h i -> i < Z.of_nat (size h).
Proof.
  intros ([Hi0 Hi] & Hneg & Hall).
  set (keys := (-1) :: ((fun n => s32 (Z.of_nat n)) <$> seq 0 (Z.to_nat i))).
  assert (NoDup keys) as Hnd.
  { constructor.
    - intros Hin. apply elem_of_list_fmap in Hin as (n & E & Hn). apply elem_of_seq in Hn.
      change (-1) with (s32 4294967295) in E. apply s32_inj in E; unfold W32 in *; lia.
    - apply NoDup_fmap_2_strong; [|apply NoDup_seq]. intros x y Hx Hy E.
      apply elem_of_seq in Hx, Hy. apply s32_inj in E; unfold W32 in *; lia. }
  assert (list_to_set keys ⊆ dom h) as Hsub.
  { intros k Hk. apply elem_of_list_to_set in Hk. apply elem_of_dom. apply not_eq_None_Some.
    apply elem_of_cons in Hk as [->|Hk]; [exact Hneg|].
    apply elem_of_list_fmap in Hk as (n & -> & Hn). apply elem_of_seq in Hn. apply Hall. lia. }
  apply subseteq_size in Hsub. rewrite size_list_to_set in Hsub by exact Hnd. rewrite size_dom in Hsub.
  unfold keys in Hsub. cbn [length] in Hsub. rewrite fmap_length, seq_length in Hsub. lia.
Qed.

Lemma stuck_step h i iter : stuck_inv h i -> stuck_inv (snd (handle_data_ram iter h (s32 i))) (u32 (i + 1)).
Proof.
  intros ([Hi0 Hi] & Hneg & Hall). unfold handle_data_ram.
  assert (forall k, h !! k <> None -> snd (touch h (s32 i)) !! k <> None) as Hkeep.
  { intros k Hk. unfold touch. destruct (h !! s32 i) eqn:E; cbn; [exact Hk|].
    destruct (decide (k = s32 i)) as [->|]; [rewrite lookup_insert; discriminate|].
    rewrite lookup_insert_ne by congruence. exact Hk. }
  assert (snd (touch h (s32 i)) !! s32 i <> None) as Hin.
  { unfold touch. destruct (h !! s32 i) eqn:E; cbn; [congruence|]. rewrite lookup_insert. discriminate. }
  destruct (touch h (s32 i)) as [m h'] eqn:Et. cbn [snd] in *. repeat split.
  - unfold u32. apply Z.mod_pos_bound. reflexivity.
  - unfold u32. apply Z.mod_pos_bound. reflexivity.
  - apply Hkeep, Hneg.
  - intros j Hj. unfold u32, W32 in *.
    destruct (Z.eq_dec (i + 1) 4294967296) as [E|E].
    + rewrite E, Z.mod_same in Hj by lia. lia.
    + rewrite Z.mod_small in Hj by lia. destruct (Z.eq_dec j i) as [->|]; [exact Hin|].
      apply Hkeep, Hall. lia.
Qed.

Lemma stuck_hang fuel iter : forall h i out, stuck_inv h i -> handle_data_loop fuel iter h i out = Hang.
Proof.
  induction fuel as [|fuel IH]; intros h i out Hinv; cbn [handle_data_loop];
    destruct (Z.ltb_spec i (Z.of_nat (size h))) as [_|Hge];
    try (pose proof (stuck_size h i Hinv); lia).
  - reflexivity.
  - pose proof (stuck_step h i iter Hinv) as Hs. destruct (handle_data_ram iter h (s32 i)) as [d h'].
    apply IH, Hs.
Qed.

Theorem handle_data_hangs fuel iter h m : h !! (-1) = Some m -> handle_data fuel iter h = Hang.
Proof.
  intros Hm. apply stuck_hang. repeat split; try reflexivity; [congruence|]. intros j Hj. lia.
Qed.
