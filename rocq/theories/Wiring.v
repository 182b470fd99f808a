(** Counting: how many wirings there are and how many can be drawn (for C143). *)
From Verif Require Import Prelude Bytes Utils BinInput Ram Json Fs RamData Disc Synth Rand.
From Verif Require Import UtilsProofs DiscCtorProofs CtorFacts RandProofs SpecWiring.

Fixpoint zfact (n : nat) : Z := match n with O => 1 | S n' => Z.of_nat (S n') * zfact n' end.
Lemma zfact_pos n : 1 <= zfact n.
Proof. induction n as [|n IH]; [cbn; lia|]. change (zfact (S n)) with (Z.of_nat (S n) * zfact n). nia. Qed.
Lemma zfact_mono n m : (n <= m)%nat -> zfact n <= zfact m.
Proof.
  induction 1 as [|m _ IH]; [lia|]. change (zfact (S m)) with (Z.of_nat (S m) * zfact m). pose proof (zfact_pos m). nia.
Qed.

(** ** All permutations of a list *)
Lemma interleave_len {A} (x : A) l : length (interleave x l) = S (length l).
Proof. induction l as [|y l IH]; [reflexivity|]. cbn [interleave length]. rewrite fmap_length, IH. reflexivity. Qed.
Lemma interleave_nodup (x : Z) (l : list Z) : x ∉ l -> NoDup (interleave x l).
Proof.
  induction l as [|y l IH]; intros H; cbn [interleave]; [apply NoDup_singleton|]. apply not_elem_of_cons in H as [Hn H]. constructor.
  - rewrite elem_of_list_fmap. intros (l' & E & _). congruence.
  - apply NoDup_fmap_2; [intros ? ? E; congruence|auto].
Qed.
Lemma interleave_filter (x : Z) (l l' : list Z) : x ∉ l -> l' ∈ interleave x l -> filter (fun y => y <> x) l' = l.
Proof.
  assert (K : forall k : list Z, x ∉ k -> filter (fun y => y <> x) k = k).
  { induction k as [|y k IHk]; intros H; [reflexivity|]. apply not_elem_of_cons in H as [Hn H]. rewrite filter_cons_True by congruence. rewrite IHk by exact H. reflexivity. }
  revert l'. induction l as [|y l IH]; intros l' Hx H; cbn [interleave] in H.
  - apply elem_of_list_singleton in H as ->. rewrite filter_cons_False by auto. reflexivity.
  - apply elem_of_cons in H as [-> | H].
    + rewrite filter_cons_False by auto. apply K, Hx.
    + apply elem_of_list_fmap in H as (k & -> & Hk). apply not_elem_of_cons in Hx as [Hn Hx]. rewrite filter_cons_True by congruence. rewrite (IH k Hx Hk). reflexivity.
Qed.
Lemma perms_len (l : list Z) : len (permutations l) = zfact (length l).
Proof.
  induction l as [|x l IH]; [reflexivity|]. cbn [permutations length]. change (zfact (S (length l))) with (Z.of_nat (S (length l)) * zfact (length l)). rewrite <- IH.
  assert (K : forall ps, Forall (fun p => length p = length l) ps -> length (ps ≫= interleave x) = (S (length l) * length ps)%nat).
  { clear IH. induction ps as [|p ps IHp]; intros H; [cbn [length]; change (length ([] : list (list Z)) = (S (length l) * 0)%nat); rewrite Nat.mul_0_r; reflexivity|].
    apply Forall_cons in H as [Hp H]. rewrite bind_cons, app_length, interleave_len, IHp, Hp by exact H. cbn [length]. lia. }
  unfold len. rewrite K; [lia|]. apply Forall_forall. intros p Hp. apply permutations_Permutation, Permutation_length in Hp. congruence.
Qed.
Lemma perms_nodup (l : list Z) : NoDup l -> NoDup (permutations l).
Proof.
  induction l as [|x l IH]; intros H; cbn [permutations]; [apply NoDup_singleton|]. apply NoDup_cons in H as [Hx H].
  assert (K : forall ps, NoDup ps -> Forall (fun p => x ∉ p) ps -> NoDup (ps ≫= interleave x)).
  { clear IH. induction ps as [|p ps IHp]; intros Hn Hf; [constructor|]. apply NoDup_cons in Hn as [Hp Hn]. apply Forall_cons in Hf as [Hxp Hf].
    rewrite bind_cons. apply NoDup_app. split; [apply interleave_nodup, Hxp|]. split; [|auto]. intros k Hk Hk'. apply Hp.
    apply elem_of_list_bind in Hk' as (q & Hkq & Hq). rewrite Forall_forall in Hf. pose proof (interleave_filter x p k Hxp Hk) as E1. pose proof (interleave_filter x q k (Hf q Hq) Hkq) as E2. congruence. }
  apply K; [auto|]. apply Forall_forall. intros p Hp. apply permutations_Permutation in Hp. rewrite <- Hp. exact Hx.
Qed.

(** ** Cutting a list into pieces of equal length *)
Fixpoint chunks (n a : nat) (l : list Z) : list (list Z) :=
  match n with O => [] | S n' => take a l :: chunks n' a (drop a l) end.
Lemma chunks_concat n a : forall l, length l = (n * a)%nat -> List.concat (chunks n a l) = l.
Proof.
  induction n as [|n IH]; intros l H; cbn [chunks List.concat]; [destruct l; [reflexivity|discriminate]|]. rewrite IH by (rewrite drop_length; lia). apply take_drop.
Qed.
Lemma chunks_shape n a : forall l, length l = (n * a)%nat -> length (chunks n a l) = n /\ Forall (fun c => length c = a) (chunks n a l).
Proof.
  induction n as [|n IH]; intros l H; cbn [chunks]; [split; [reflexivity|constructor]|]. destruct (IH (drop a l)) as [L F]; [rewrite drop_length; lia|].
  split; [cbn [length]; lia|]. constructor; [rewrite take_length; lia|exact F].
Qed.

(** ** Pigeonhole *)
Lemma pigeon {A} `{EqDecision A} (L L' : list A) : NoDup L' -> len L < len L' -> exists x, x ∈ L' /\ x ∉ L.
Proof.
  intros Hn Hl. destruct (decide (Exists (fun x => x ∉ L) L')) as [H|H]; [apply Exists_exists in H; exact H|].
  exfalso. assert (HF : forall x, x ∈ L' -> x ∈ L).
  { intros x Hx. destruct (decide (x ∈ L)) as [Hi|Hi]; [exact Hi|]. exfalso. apply H, Exists_exists. eauto. }
  pose proof (submseteq_length _ _ (NoDup_submseteq _ _ Hn HF)). unfold len in Hl. lia.
Qed.

(** All proper wirings, for a width that divides the size of the images. *)
Definition all_wirings (a e : Z) : list (list (list Z)) :=
  chunks (Z.to_nat (e / a)) (Z.to_nat a) <$> permutations (Z.of_nat <$> seq 0 (Z.to_nat e)).
Lemma pixels_nodup e : NoDup (Z.of_nat <$> seq 0 e).
Proof. apply NoDup_fmap_2; [intros ? ? ?; lia|]. apply NoDup_seq. Qed.
Lemma perm_length (e : Z) p : p ∈ permutations (Z.of_nat <$> seq 0 (Z.to_nat e)) -> length p = Z.to_nat e.
Proof. intros H. apply permutations_Permutation, Permutation_length in H. rewrite fmap_length, seq_length in H. congruence. Qed.
Lemma div_nat a e : 0 < a -> 0 <= e -> e mod a = 0 -> Z.to_nat e = (Z.to_nat (e / a) * Z.to_nat a)%nat.
Proof.
  intros Ha He Hm. apply Z.div_exact in Hm; [|lia]. assert (0 <= e / a) by (apply Z.div_pos; lia). rewrite <- Z2Nat.inj_mul by lia. f_equal. lia.
Qed.
Lemma all_wirings_len a e : len (all_wirings a e) = zfact (Z.to_nat e).
Proof. unfold all_wirings, len. rewrite fmap_length. change (len (permutations (Z.of_nat <$> seq 0 (Z.to_nat e))) = zfact (Z.to_nat e)). rewrite perms_len, fmap_length, seq_length. reflexivity. Qed.
Lemma nodup_fmap_on {A B} (f : A -> B) (l : list A) : NoDup l -> (forall x y, x ∈ l -> y ∈ l -> f x = f y -> x = y) -> NoDup (f <$> l).
Proof.
  induction l as [|x l IH]; intros Hn Hf; [constructor|]. apply NoDup_cons in Hn as [Hx Hn]. rewrite fmap_cons. constructor.
  - rewrite elem_of_list_fmap. intros (y & E & Hy). apply Hx. rewrite (Hf x y); [exact Hy|left|right; exact Hy|exact E].
  - apply IH; [exact Hn|]. intros u v Hu Hv. apply Hf; right; assumption.
Qed.
Lemma all_wirings_nodup a e : 0 < a -> 0 <= e -> e mod a = 0 -> NoDup (all_wirings a e).
Proof.
  intros Ha He Hm. apply nodup_fmap_on; [apply perms_nodup, pixels_nodup|]. intros p q Hp Hq E.
  apply (f_equal (@List.concat Z)) in E. rewrite !chunks_concat in E by (rewrite (perm_length e) by assumption; apply div_nat; assumption). exact E.
Qed.
Lemma all_wirings_proper a e m : 0 < a -> 0 <= e -> e mod a = 0 -> m ∈ all_wirings a e -> proper_wiring a e m.
Proof.
  intros Ha He Hm H. apply elem_of_list_fmap in H as (p & -> & Hp). assert (Hl : length p = (Z.to_nat (e / a) * Z.to_nat a)%nat) by (rewrite (perm_length e p Hp); apply div_nat; assumption).
  destruct (chunks_shape (Z.to_nat (e / a)) (Z.to_nat a) p Hl) as [L F]. assert (0 <= e / a) by (apply Z.div_pos; lia). unfold proper_wiring. rewrite chunks_concat by exact Hl. repeat split.
  - unfold len. rewrite L. lia.
  - eapply Forall_impl; [exact F|]. intros c Hc. unfold len. cbv beta in Hc. lia.
  - apply permutations_Permutation in Hp. rewrite <- Hp. apply pixels_nodup.
  - apply permutations_Permutation in Hp. apply Forall_forall. intros i Hi. rewrite <- Hp in Hi. apply elem_of_list_fmap in Hi as (n & -> & Hn). apply elem_of_seq in Hn. lia.
Qed.

(** ** What the clock can draw *)
Definition seeds (top : Z) : list Z := Z.of_nat <$> seq 0 (Z.to_nat (top + 1)).
Lemma seeds_len top : 0 <= top -> len (seeds top) = top + 1.
Proof. intros H. unfold seeds, len. rewrite fmap_length, seq_length. lia. Qed.
Lemma seed_in top r : 0 <= top -> 0 <= r -> Z.rem r (top + 1) ∈ seeds top.
Proof.
  intros Ht Hr. pose proof (Z.rem_bound_pos r (top + 1) ltac:(lia) ltac:(lia)). apply elem_of_list_fmap. exists (Z.to_nat (Z.rem r (top + 1))). split; [lia|]. apply elem_of_seq. lia.
Qed.
Definition ok_or_nil {A} (r : res (list A)) : list A := match r with Ok l => l | _ => [] end.
(** Whatever [f] computes from the freshly seeded generator, it takes at most [top + 1] values. *)
Lemma few {A} (g : crand) (top : Z) (f : cr_state g -> A) : rand_ok g -> 0 <= top < INT_MAX ->
  exists L : list A, len L = top + 1 /\ forall now st, exists st1, srand_randint g now top st = (Ok tt, st1) /\ f st1 ∈ L.
Proof.
  intros Hg Ht. exists ((fun s => f (cr_seed g (u32 s))) <$> seeds top). split; [unfold len; rewrite fmap_length; apply seeds_len; lia|].
  intros now st. rewrite srand_ok by assumption. eexists. split; [reflexivity|]. apply elem_of_list_fmap. eexists. split; [reflexivity|]. apply seed_in; [lia|]. apply Hg.
Qed.

(** ** Any permutation can come out of random_shuffle *)
Lemma swap_length i j l : length (swap i j l) = length l.
Proof. unfold swap. destruct (l !! i); [|reflexivity]. destruct (l !! j); [|reflexivity]. rewrite !insert_length. reflexivity. Qed.
Lemma swap_lookup i j (l : list Z) x y k : l !! i = Some x -> l !! j = Some y ->
  swap i j l !! k = if decide (k = i) then Some y else if decide (k = j) then Some x else l !! k.
Proof.
  intros Hi Hj. unfold swap. rewrite Hi, Hj. pose proof (lookup_lt_Some _ _ _ Hi). pose proof (lookup_lt_Some _ _ _ Hj). repeat case_decide.
  - subst. apply list_lookup_insert. rewrite insert_length. lia.
  - rewrite list_lookup_insert_ne by congruence. subst. apply list_lookup_insert. lia.
  - rewrite !list_lookup_insert_ne by congruence. reflexivity.
Qed.
Lemma swap_invol i j (l : list Z) : is_Some (l !! i) -> is_Some (l !! j) -> swap i j (swap i j l) = l.
Proof.
  intros [x Hi] [y Hj]. apply list_eq. intros k. assert (Hi' : swap i j l !! i = Some y) by (rewrite (swap_lookup i j l x y) by assumption; rewrite decide_True by reflexivity; reflexivity).
  assert (Hj' : swap i j l !! j = Some x).
  { rewrite (swap_lookup i j l x y) by assumption. destruct (decide (j = i)) as [->|]; [congruence|]. rewrite decide_True by reflexivity. reflexivity. }
  rewrite (swap_lookup i j (swap i j l) y x k Hi' Hj'). rewrite (swap_lookup i j l x y k Hi Hj). repeat case_decide; congruence.
Qed.
Definition tape (js : list Z) : crand :=
  CRand (list Z) (fun _ => js) (fun s => match s with [] => (0, []) | r :: s' => (r mod 2147483648, s') end).
Lemma tape_ok js : rand_ok (tape js).
Proof. intros [|r s]; cbn [tape cr_next fst]; unfold INT_MAX; [lia|]. pose proof (Z.mod_pos_bound r 2147483648). lia. Qed.
Lemma shuffle_loop_app g a : forall b i l st, shuffle_loop g (a + b) i l st = (let '(l', st') := shuffle_loop g a i l st in shuffle_loop g b (i + a) l' st').
Proof.
  induction a as [|a IH]; intros b i l st; cbn [shuffle_loop Nat.add]; [rewrite Nat.add_0_r; reflexivity|]. destruct (cr_next g st) as [r st']. rewrite IH, Nat.add_succ_r. reflexivity.
Qed.
Lemma any_order n : forall l t : list Z, (S n <= length l)%nat -> len l <= INT_MAX -> l ≡ₚ t -> drop (S n) l = drop (S n) t ->
  exists js, forall js0 rest, shuffle_loop (tape js0) n 1 l (js ++ rest) = (t, rest).
Proof.
  induction n as [|n IH]; intros l t Hl HM Hp Hd.
  - exists []. intros js0 rest. cbn [shuffle_loop]. f_equal.
    assert (Hlt : length l = length t) by (apply Permutation_length; exact Hp). destruct l as [|x l]; [cbn in Hl; lia|]. destruct t as [|y t]; [discriminate|]. change (l = t) in Hd. subst t.
    apply (Permutation_app_inv_r l [x] [y]), Permutation_singleton_l in Hp. congruence.
  - pose proof (Permutation_length Hp) as Hlt. destruct (lookup_lt_is_Some_2 l (S n)) as [x Hx]; [lia|].
    assert (Hpt : take (S (S n)) l ≡ₚ take (S (S n)) t).
    { rewrite <- (take_drop (S (S n)) l), <- (take_drop (S (S n)) t), Hd in Hp. apply Permutation_app_inv_r in Hp. exact Hp. }
    assert (Hxt : x ∈ take (S (S n)) t) by (rewrite <- Hpt; apply (elem_of_list_lookup_2 _ (S n)); rewrite lookup_take by lia; exact Hx).
    apply elem_of_list_lookup in Hxt as [j Hj]. assert (Hjn : (j < S (S n))%nat) by (apply lookup_lt_Some in Hj; rewrite take_length in Hj; lia). rewrite lookup_take in Hj by exact Hjn.
    destruct (lookup_lt_is_Some_2 t (S n)) as [y Hy]; [lia|]. set (u := swap (S n) j t).
    destruct (IH l u) as [js Hjs].
    + lia.
    + exact HM.
    + unfold u. rewrite swap_perm. exact Hp.
    + apply list_eq. intros k. rewrite !lookup_drop. unfold u. rewrite (swap_lookup (S n) j t y x) by assumption. destruct k as [|k].
      * rewrite Nat.add_0_r, decide_True by reflexivity. exact Hx.
      * rewrite !decide_False by lia. apply (f_equal (fun v => v !! k)) in Hd. rewrite !lookup_drop in Hd. replace (S n + S k)%nat with (S (S n) + k)%nat by lia. exact Hd.
    + exists (js ++ [Z.of_nat j]). intros js0 rest. replace (S n) with (n + 1)%nat at 1 by lia. rewrite shuffle_loop_app, <- app_assoc, Hjs. cbn [app shuffle_loop tape cr_next].
      f_equal. unfold len, INT_MAX in HM. rewrite Z.mod_small by lia. replace (1 + n)%nat with (S n) by lia. rewrite Z.rem_small by lia. rewrite Nat2Z.id. apply swap_invol; eauto.
Qed.

Lemma piece (a : nat) (rest : list Z) : forall (m : list (list Z)) i x, Forall (fun c => length c = a) m -> m !! i = Some x ->
  take a (drop (i * a) (List.concat m ++ rest)) = x.
Proof.
  induction m as [|c m IH]; intros i x HF Hx; [discriminate|]. apply Forall_cons in HF as [Hc HF]. cbn [List.concat]. destruct i as [|i].
  - injection Hx as ->. change (0 * a)%nat with 0%nat. rewrite drop_0, <- app_assoc. apply take_app_alt. congruence.
  - cbn [Nat.mul]. rewrite <- (IH i x HF Hx). rewrite <- drop_drop, <- app_assoc, (drop_app_alt c) by congruence. reflexivity.
Qed.
Lemma pieces a e m iz base rest : len m = e / a -> 0 <= a -> Forall (fun l => len l = a) m ->
  r_addresses <$> rams_of (List.concat m ++ rest) a (e / a) iz base = m.
Proof.
  intros Hl Ha HF. assert (HF' : Forall (fun c => length c = Z.to_nat a) m) by (eapply Forall_impl; [exact HF|]; intros c Hc; unfold len in Hc; cbv beta in Hc; lia).
  apply list_eq. intros i. unfold rams_of. rewrite <- list_fmap_compose, list_lookup_fmap. destruct (m !! i) as [x|] eqn:Ex.
  - pose proof (lookup_lt_Some _ _ _ Ex) as Hi. rewrite lookup_seq_lt by (unfold len in Hl; lia). cbn [fmap option_fmap option_map compose r_addresses Nat.add]. f_equal. exact (piece (Z.to_nat a) rest m i x HF' Ex).
  - apply lookup_ge_None in Ex. rewrite lookup_seq_ge by (unfold len in Hl; lia). reflexivity.
Qed.
Lemma complete_wiring a e m : proper_wiring a e m -> 0 <= e -> exists rest, (Z.of_nat <$> seq 0 (Z.to_nat e)) ≡ₚ List.concat m ++ rest.
Proof.
  intros (_ & _ & Hn & Hr) He. exists (filter (fun p => p ∉ List.concat m) (Z.of_nat <$> seq 0 (Z.to_nat e))). apply NoDup_Permutation.
  - apply pixels_nodup.
  - apply NoDup_app. split; [exact Hn|]. split; [|apply NoDup_filter, pixels_nodup]. intros x Hx Hf. apply elem_of_list_filter in Hf as [Hf _]. contradiction.
  - intros x. rewrite elem_of_app, elem_of_list_filter. destruct (decide (x ∈ List.concat m)) as [Hx|Hx]; [|tauto]. split; [tauto|]. intros _.
    rewrite Forall_forall in Hr. specialize (Hr x Hx). apply elem_of_list_fmap. exists (Z.to_nat x). split; [lia|]. apply elem_of_seq. lia.
Qed.
Lemma drawable a e iz c base m : 2 <= a <= e -> 2 <= base -> e + a <= INT_MAX -> fits base a ->
  c = false \/ e mod a = 0 -> proper_wiring a e m ->
  exists g, rand_ok g /\ forall now st, exists d, fst (disc_new_at g now a e iz c [] [] base st) = Ok d /\ disc_mapping d = m.
Proof.
  intros Ha Hb He Hf Hc Hm. apply fits_width in Hf. destruct (complete_wiring a e m Hm ltac:(lia)) as [rest Hp]. pose proof (Permutation_length Hp) as Hlen. rewrite fmap_length, seq_length in Hlen.
  set (pix := Z.of_nat <$> seq 0 (Z.to_nat e)) in *. assert (Hpl : length pix = Z.to_nat e) by (unfold pix; rewrite fmap_length; apply seq_length).
  destruct (any_order (length pix - 1) pix (List.concat m ++ rest)) as [js Hjs].
  { rewrite Hpl. lia. } { unfold len. rewrite Hpl. lia. } { exact Hp. }
  { rewrite !drop_ge by lia. reflexivity. }
  exists (tape js). split; [apply tape_ok|]. intros now st. exists (Disc e 0 (rams_of (List.concat m ++ rest) a (e / a) iz base)). split; [|apply pieces; [apply Hm|lia|apply Hm]].
  unfold disc_new_at. rewrite srand_ok by (try apply tape_ok; unfold INT_MAX; lia). cbn [ebind length Nat.eqb negb]. unfold setRAMShuffle_at. cbn [fst].
  assert (Hext : (if c && (0 <? Z.rem e a) then a - Z.rem e a else 0) = 0).
  { rewrite Z.rem_mod_nonneg by lia. destruct Hc as [-> | ->]; [reflexivity|]. rewrite Z.ltb_irrefl, andb_false_r. reflexivity. }
  assert (Hnum : (if c && (0 <? Z.rem e a) then e ÷ a + 1 else e ÷ a) = e / a).
  { rewrite Z.rem_mod_nonneg, Z.quot_div_nonneg by lia. destruct Hc as [-> | ->]; [reflexivity|]. rewrite Z.ltb_irrefl, andb_false_r. reflexivity. }
  unfold setRAMShuffle, extra_indexes. rewrite (proj2 (checkAddressSize_ok e a)) by exact Ha. rewrite (proj2 (checkBase_ok base)) by exact Hb. cbn [rbind].
  rewrite Hext, Hnum. rewrite int_of_ok by (unfold INT_MIN; lia). cbn [rbind]. change (seq 0 (Z.to_nat 0)) with (@nil nat). cbn [rmapM rbind]. rewrite app_nil_r. fold pix.
  unfold draw_of. cbn [dr_shuffle]. change (rand_skip (tape js) (Z.to_nat 0) ?s) with s. unfold random_shuffle. specialize (Hjs js []). rewrite app_nil_r in Hjs.
  change (cr_seed (tape js) _) with js. rewrite Hjs. cbn [fst].
  assert (Hka : 0 < e / a) by (apply Z.div_str_pos; lia).
  rewrite make_rams_spec; [| lia | lia | exact Hka | unfold len; rewrite <- Hlen; pose proof (Z.mul_div_le e a); lia].
  unfold width_ok in Hf. destruct (base =? 2); [destruct (Z.leb_spec a 64)|destruct (Z.leb_spec (base ^ a) LL_MAX)]; (reflexivity || lia).
Qed.
