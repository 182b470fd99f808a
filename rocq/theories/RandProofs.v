(** Facts about the generator model (C124-C127). *)
From Verif Require Import Prelude Bytes Utils BinInput Ram Json Fs RamData Disc Synth Rand.

Lemma swap_perm i j (l : list Z) : swap i j l ≡ₚ l.
Proof.
  unfold swap. destruct (l !! i) as [x|] eqn:Ei; [|reflexivity]. destruct (l !! j) as [y|] eqn:Ej; [|reflexivity].
  destruct (decide (i = j)) as [->|Hn].
  - rewrite list_insert_insert. rewrite Ei in Ej. injection Ej as ->. rewrite list_insert_id by exact Ei. reflexivity.
  - apply Permutation_inj. split; [rewrite !insert_length; reflexivity|].
    exists (fun k => if decide (k = i) then j else if decide (k = j) then i else k). split.
    + intros a b. repeat destruct decide; intros; congruence.
    + intros k. pose proof (lookup_lt_Some _ _ _ Ei) as Li. pose proof (lookup_lt_Some _ _ _ Ej) as Lj. destruct (decide (k = i)) as [->|Hi].
      * rewrite list_lookup_insert by (rewrite insert_length; exact Li). symmetry. exact Ej.
      * destruct (decide (k = j)) as [->|Hj].
        -- rewrite list_lookup_insert_ne by congruence. rewrite list_lookup_insert by exact Lj. symmetry. exact Ei.
        -- rewrite !list_lookup_insert_ne by congruence. reflexivity.
Qed.
Lemma shuffle_loop_perm (g : crand) left : forall i (l : list Z) st, fst (shuffle_loop g left i l st) ≡ₚ l.
Proof.
  induction left as [|left IH]; intros i l st; cbn [shuffle_loop]; [reflexivity|]. destruct (cr_next g st) as [r st']. rewrite IH. apply swap_perm.
Qed.
Lemma random_shuffle_perm g l st : fst (random_shuffle g l st) ≡ₚ l.
Proof. apply shuffle_loop_perm. Qed.
Lemma draw_of_valid g extra st : rand_ok g -> valid_draw (draw_of g extra st).
Proof. intros H. split; [intros i; apply H|intros l; apply random_shuffle_perm]. Qed.

Lemma randint_ok g now top isSeed st : rand_ok g -> 0 <= top < INT_MAX ->
  randint_at g now 0 top isSeed st =
    (let st := if isSeed then cr_seed g (u32 now) else st in (Ok (Z.rem (fst (cr_next g st)) (top + 1)), snd (cr_next g st))).
Proof.
  intros H Ht. unfold randint_at. set (st1 := if isSeed then _ else _). specialize (H st1). destruct (cr_next g st1) as [r st'] eqn:E. cbn [fst snd] in *.
  f_equal. unfold randint. replace (top - 0 + 1) with (top + 1) by lia. unfold int_of at 1. unfold in_int. unfold INT_MIN, INT_MAX in *.
  destruct (Z.leb_spec (-2147483648) (top + 1)); [|lia]. destruct (Z.leb_spec (top + 1) 2147483647); [|lia]. cbn [andb rbind].
  destruct (Z.eqb_spec (top + 1) 0); [lia|]. pose proof (Z.rem_bound_pos r (top + 1)). unfold int_of, in_int, INT_MIN, INT_MAX.
  destruct (Z.leb_spec (-2147483648) (0 + Z.rem r (top + 1))); [|lia]. destruct (Z.leb_spec (0 + Z.rem r (top + 1)) 2147483647); [|lia]. reflexivity.
Qed.
Lemma srand_ok g now top st : rand_ok g -> 0 <= top < INT_MAX ->
  srand_randint g now top st = (Ok tt, cr_seed g (u32 (Z.rem (fst (cr_next g (cr_seed g (u32 now)))) (top + 1)))).
Proof. intros H Ht. unfold srand_randint. rewrite randint_ok by assumption. reflexivity. Qed.

Lemma string_chars g : rand_ok g -> forall n st, length (fst (random_string g n st)) = n /\
  Forall (fun c => c ∈ alphanum /\ c <> "9"%char) (fst (random_string g n st)).
Proof.
  intros H. induction n as [|n IH]; intros st; cbn [random_string]; [split; [reflexivity|constructor]|].
  pose proof (H st) as Hr. destruct (cr_next g st) as [r st1]. cbn [fst] in Hr. destruct (IH st1) as [L F]. destruct (random_string g n st1) as [s st2]. cbn [fst length] in *.
  split; [congruence|]. constructor; [|exact F]. change (len alphanum - 1) with 61. pose proof (Z.rem_bound_pos r 61).
  assert (Hb : (Z.to_nat (Z.rem r 61) < 61)%nat) by lia. generalize dependent (Z.to_nat (Z.rem r 61)). intros k Hb. clear -Hb.
  assert (forallb (fun k => bool_decide (nth k alphanum "000"%char ∈ alphanum) && negb (bool_decide (nth k alphanum "000"%char = "9"%char))) (seq 0 61) = true) as A by (vm_compute; reflexivity).
  rewrite forallb_forall in A. specialize (A k). rewrite in_seq in A. specialize (A ltac:(lia)). apply andb_true_iff in A as [A B].
  apply bool_decide_eq_true in A. apply negb_true_iff, bool_decide_eq_false in B. split; assumption.
Qed.

(** ** RAM(addressSize, entrySize) *)
Lemma addresses_same g now e left : forall i st l st', random_addresses g left i (fun _ => now) e st = (Ok l, st') ->
  exists p, l = repeat p left /\ (forall q, fst (randint_at g now 0 (e - 1) true st) = Ok q -> left <> O -> p = q).
Proof.
  induction left as [|left IH]; intros i st l st' E; cbn [random_addresses] in E.
  - injection E as <- _. exists 0. split; [reflexivity|congruence].
  - unfold int_of in E. destruct (in_int (e - 1)); [|discriminate]. destruct (randint_at g now 0 (e - 1) true st) as [[a| | |] st1] eqn:Er; cbn [ebind] in E; try discriminate.
    destruct (random_addresses g left (S i) (fun _ => now) e st1) as [[l'| | |] st2] eqn:El; cbn [ebind] in E; try discriminate.
    injection E as <- _. destruct (IH _ _ _ _ El) as (p & -> & Hp). exists a. split; [|intros q Hq _; cbn in Hq; congruence].
    cbn [repeat]. f_equal. destruct left as [|left]; [reflexivity|]. rewrite (Hp a); [reflexivity| |discriminate].
    assert (randint_at g now 0 (e - 1) true st1 = randint_at g now 0 (e - 1) true st) as -> by reflexivity. rewrite Er. reflexivity.
Qed.
Lemma one_pixel g now a e iz base st r st' :
  ram_random_at g (fun _ => now) a e iz base st = (Ok r, st') -> exists p, r_addresses r = repeat p (Z.to_nat a).
Proof.
  unfold ram_random_at. destruct (checkLimitAddressSize a base); try discriminate. destruct (a <? 0); [discriminate|].
  destruct (random_addresses g (Z.to_nat a) 0 (fun _ => now) e st) as [[l| | |] st1] eqn:E; cbn [ebind]; try discriminate.
  intros H. injection H as <- _. destruct (addresses_same g now e _ _ _ _ _ E) as (p & -> & _). exists p. reflexivity.
Qed.
Lemma addresses_range g now e : rand_ok g -> 1 <= e <= INT_MAX -> forall left i st, exists l st',
  random_addresses g left i now e st = (Ok l, st') /\ length l = left /\ Forall (fun p => 0 <= p < e) l.
Proof.
  intros Hg He. induction left as [|left IH]; intros i st; cbn [random_addresses]; [eexists [], _; split; [reflexivity|split; [reflexivity|constructor]]|].
  unfold int_of, in_int. unfold INT_MIN, INT_MAX in *. destruct (Z.leb_spec (-2147483648) (e - 1)); [|lia]. destruct (Z.leb_spec (e - 1) 2147483647); [|lia]. cbn [andb].
  rewrite randint_ok by (try assumption; unfold INT_MAX; lia). cbn [ebind]. cbv zeta. set (st0 := cr_seed g _). specialize (Hg st0).
  destruct (IH (S i) (snd (cr_next g st0))) as (l & st' & -> & L & F). cbn [ebind]. eexists _, _. split; [reflexivity|]. split; [cbn [length]; congruence|].
  constructor; [|exact F]. replace (e - 1 + 1) with e by lia. apply Z.rem_bound_pos; lia.
Qed.
Lemma random_ram g now a e iz base st : rand_ok g -> 0 <= a -> checkLimitAddressSize a base = Ok tt ->
  (1 <= e <= INT_MAX -> exists r, fst (ram_random_at g now a e iz base st) = Ok r /\
     len (r_addresses r) = a /\ Forall (fun p => 0 <= p < e) (r_addresses r) /\ r_positions r = ∅ /\ r_ignoreZero r = iz /\ r_base r = base) /\
  (e = 0 -> 0 < a -> fst (ram_random_at g now a e iz base st) = UB UBDivZero).
Proof.
  intros Hg Ha Hc. unfold ram_random_at. rewrite Hc. destruct (Z.ltb_spec a 0); [lia|]. split.
  - intros He. destruct (addresses_range g now e Hg He (Z.to_nat a) 0 st) as (l & st' & -> & L & F). cbn [ebind fst].
    eexists. split; [reflexivity|]. cbn [r_addresses r_positions r_ignoreZero r_base]. split; [unfold len; lia|]. auto.
  - intros -> Hp. destruct (Z.to_nat a) as [|n] eqn:En; [lia|]. cbn [random_addresses]. change (int_of (0 - 1)) with (@Ok Z (-1)). cbv iota beta.
    unfold randint_at. destruct (cr_next g _) as [v st1]. change (randint 0 (-1) v) with (@UB Z UBDivZero). reflexivity.
Qed.
