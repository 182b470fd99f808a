(** C34, continued: what exactly happens to images with negative pixels. *)
From Verif Require Import Prelude Bytes Utils BinInput Ram Disc SpecDisc SpecAlias.
From Verif Require Import SpecBin BytesProofs BinProofs UtilsProofs TextProofs DiscCtorProofs RamProofs DiscProofs DiscFacts CtorFacts PropsDisc.

Lemma weigh_enc base addrs x ds : reads x addrs ds -> weigh base addrs x = enc base ds.
Proof. induction 1 as [|a v addrs ds Ha _ IH]; [reflexivity|]. cbn [weigh enc]. rewrite Ha, IH. reflexivity. Qed.
Lemma takes_index r x : Forall (fun a => exists v, im_get x a = Ok v /\ v < r_base r) (r_addresses r) ->
  getIndex r x = Ok (u64 (weigh (r_base r) (r_addresses r) x)).
Proof.
  intros H. assert (exists ds, reads x (r_addresses r) ds /\ Forall (fun v => v < r_base r) ds) as (ds & Hr & Hb).
  { induction H as [|a addrs (v & Ha & Hv) _ (ds & Hr & Hb)]; [exists []; split; constructor|]. exists (v :: ds). split; constructor; auto. }
  unfold getIndex. destruct (getIndex_loop_spec x (r_base r) _ _ Hr 0 1) as [H1 _].
  rewrite H1 by (try exact Hb; unfold W64; lia). rewrite (weigh_enc _ _ _ _ Hr), Z.mul_1_l. reflexivity.
Qed.
Lemma confused_index base addrs x y : confused base addrs x y <-> u64 (weigh base addrs x) = u64 (weigh base addrs y).
Proof.
  unfold confused, u64. change W64 with (2 ^ 64). generalize (weigh base addrs x) (weigh base addrs y). intros p q.
  split; intros H.
  - apply Z.mod_divide in H as (k & H); [|lia]. replace p with (q + k * 2 ^ 64) by lia. apply Z.mod_add. lia.
  - rewrite Zminus_mod, H, Z.sub_diag. reflexivity.
Qed.

Definition tally (r0 : ram) (xs : list image) (i : Z) : Z := count_if (fun y => u64 (weigh (r_base r0) (r_addresses r0) y) =? i) xs.
Definition alias_ram (xs : list image) (r0 r : ram) : Prop := same_ram r0 r /\
  forall i, r_positions r !! i = (if decide (tally r0 xs i = 0) then None else Some (tally r0 xs i)).
Lemma alias_step xs x r0 r : alias_ram xs r0 r -> len xs < INT_MAX ->
  Forall (fun a => exists v, im_get x a = Ok v /\ v < r_base r0) (r_addresses r0) ->
  exists r', ram_train r x = (Ok tt, r') /\ alias_ram (xs ++ [x]) r0 r'.
Proof.
  intros [Hs Hp] Hl Hx. pose proof (takes_index r0 x Hx) as E. rewrite <- (same_index r0 r x Hs) in E.
  set (i := u64 (weigh (r_base r0) (r_addresses r0) x)) in *.
  assert (T : forall j, tally r0 (xs ++ [x]) j = tally r0 xs j + if i =? j then 1 else 0).
  { intros j. unfold tally. rewrite count_if_app, count_if_cons, count_if_nil. fold i. lia. }
  pose proof (count_if_range (fun y => u64 (weigh (r_base r0) (r_addresses r0) y) =? i) xs) as R. fold (tally r0 xs i) in R.
  assert (F : ram_train r x = (Ok tt, with_positions r (<[i := tally r0 xs i + 1]> (r_positions r)))).
  { unfold ram_train. rewrite E, (Hp i). case_decide as H0; [rewrite H0; reflexivity|].
    rewrite int_of_ok by (unfold INT_MIN, INT_MAX in *; lia). reflexivity. }
  eexists. split; [exact F|]. split; [destruct Hs as [Ha Hb Hz]; constructor; assumption|]. intros j. cbn [with_positions r_positions]. rewrite T.
  destruct (Z.eqb_spec i j) as [<-|Hn]; [rewrite lookup_insert|rewrite lookup_insert_ne, (Hp j), Z.add_0_r by exact Hn; reflexivity].
  case_decide; [lia|reflexivity].
Qed.
Record alias_after (d0 : disc) (xs : list image) (d : disc) : Prop := AliasAfter {
  al_entry : d_entrySize d = d_entrySize d0; al_count : d_count d = len xs; al_rams : Forall2 (alias_ram xs) (d_rams d0) (d_rams d) }.
Lemma alias_train d0 xs d x : alias_after d0 xs d -> len xs < INT_MAX -> takes d0 x ->
  exists d', disc_train d x = (Ok tt, d') /\ alias_after d0 (xs ++ [x]) d'.
Proof.
  intros [He Hc Hr] Hl [Hs Hx]. unfold disc_train, checkEntrySize. rewrite He, Hs, Z.eqb_refl, Hc.
  pose proof (len_nonneg xs). rewrite int_of_ok by (unfold INT_MIN, INT_MAX in *; lia).
  assert (exists rs', rams_update (fun r => ram_train r x) (d_rams d) = (Ok tt, rs') /\ Forall2 (alias_ram (xs ++ [x])) (d_rams d0) rs') as (rs' & E & H').
  { revert Hx. clear -Hr Hl. induction Hr as [|r0 r rs0 rs H _ IH]; intros Hx; [exists []; split; [reflexivity|constructor]|].
    apply Forall_cons in Hx as [Hx0 Hx]. destruct (alias_step xs x r0 r H Hl Hx0) as (r' & E & H'). destruct (IH Hx) as (rs' & E' & Hrs).
    exists (r' :: rs'). cbn [rams_update]. rewrite E, E'. split; [reflexivity|]. constructor; assumption. }
  rewrite E. eexists. split; [reflexivity|]. constructor; cbn [d_entrySize d_count d_rams]; [reflexivity|rewrite len_app; reflexivity|exact H'].
Qed.
Lemma alias_run d0 zs ys d : alias_after d0 zs d -> len zs + len ys <= INT_MAX -> Forall (takes d0) ys ->
  exists d', disc_train_all d ys = (Ok tt, d') /\ alias_after d0 (zs ++ ys) d'.
Proof.
  revert zs d. induction ys as [|y ys IH]; intros zs d Ha Hl Hy; [exists d; rewrite app_nil_r; split; [reflexivity|exact Ha]|].
  apply Forall_cons in Hy as [Hy0 Hy]. rewrite len_cons in Hl. pose proof (len_nonneg ys).
  destruct (alias_train d0 zs d y Ha ltac:(lia) Hy0) as (d1 & E1 & H1).
  destruct (IH (zs ++ [y]) d1 H1 ltac:(rewrite len_app; change (len [y]) with 1; lia) Hy) as (d' & E' & H'). exists d'.
  unfold disc_train_all in *. cbn [efor]. rewrite E1. rewrite <- app_assoc in H'. split; [exact E'|exact H'].
Qed.
Lemma alias_vote_ok xs r0 r x : alias_ram xs r0 r -> Forall (fun a => exists v, im_get x a = Ok v /\ v < r_base r0) (r_addresses r0) ->
  getVote r x = Ok (alias_vote r0 xs x).
Proof.
  intros [Hs Hp] Hx. unfold getVote, alias_vote. rewrite (same_index r0 r x Hs), (takes_index r0 x Hx). cbn [rbind].
  destruct Hs as [_ _ Hz]. rewrite Hz. unfold u64 at 1. change W64 with (2 ^ 64). destruct (_ && _); [reflexivity|]. rewrite Hp.
  assert (tally r0 xs (u64 (weigh (r_base r0) (r_addresses r0) x)) = count_if (fun y => bool_decide (confused (r_base r0) (r_addresses r0) y x)) xs) as <-.
  { apply count_if_ext. intros y _. destruct (Z.eqb_spec (u64 (weigh (r_base r0) (r_addresses r0) y)) (u64 (weigh (r_base r0) (r_addresses r0) x))) as [H|H].
    - symmetry. apply bool_decide_eq_true. apply confused_index, H.
    - symmetry. apply bool_decide_eq_false. rewrite confused_index. exact H. }
  case_decide as H0; [rewrite H0|]; reflexivity.
Qed.

(** Every image of the right length whose pixels are all below base is accepted, negative ones
    included, and then stands for all images it is confused with: after training on any such images
    the vote of each RAM is the number of them of the same weight modulo 2^64. *)
Theorem C34_negative_exact_partial : forall d0 xs x, constructed d0 -> Forall (takes d0) xs -> takes d0 x -> len xs <= INT_MAX ->
  exists d, disc_train_all d0 xs = (Ok tt, d) /\ d_count d = len xs /\
    disc_classify d x = Ok ((fun r => alias_vote r xs x) <$> d_rams d0).
Proof.
  intros d0 xs x Hc Hxs Hx Hl. destruct (constructed_fresh d0 Hc) as [Hcount Hfresh].
  assert (alias_after d0 [] d0) as H0.
  { constructor; [reflexivity|exact Hcount|]. clear -Hfresh. induction Hfresh as [|r rs [_ Hr] _ IH]; [constructor|]. constructor; [|exact IH].
    split; [apply same_refl|]. intros i. rewrite Hr, lookup_empty. reflexivity. }
  destruct (alias_run d0 [] xs d0 H0 ltac:(change (len (@nil image)) with 0; lia) Hxs) as (d & E & [He Hcnt Hr]). cbn [app] in *.
  exists d. split; [exact E|]. split; [exact Hcnt|]. destruct Hx as [Hs Hx]. unfold disc_classify, checkEntrySize. rewrite He, Hs, Z.eqb_refl. cbn [rbind].
  revert Hx. clear -Hr. induction Hr as [|r0 r rs0 rs H _ IH]; intros Hx; [reflexivity|]. apply Forall_cons in Hx as [Hx0 Hx]. cbn [rmapM fmap list_fmap].
  rewrite (alias_vote_ok xs r0 r x H Hx0). cbn [rbind]. rewrite (IH Hx). reflexivity.
Qed.
Print Assumptions C34_negative_exact_partial.

(** In particular a training image with negative pixels votes for a proper image exactly where its
    weight modulo 2^64 is that of the proper image; each RAM of a proper image has its own weight. *)
Theorem C34_negative_proper_partial : forall d0 x y, constructed d0 -> takes d0 x -> valid_image d0 y -> Forall (fun r => r_ignoreZero r = false) (d_rams d0) ->
  exists d vs, disc_train_all d0 [x] = (Ok tt, d) /\ disc_classify d y = Ok vs /\
    Forall2 (fun r v => v = if decide (weigh (r_base r) (r_addresses r) x mod 2 ^ 64 = weigh (r_base r) (r_addresses r) y) then 1 else 0) (d_rams d0) vs.
Proof.
  intros d0 x y Hc Hx Hy Hz. assert (takes d0 y) as Ht.
  { destruct Hy as [Hs Hy]. split; [exact Hs|]. eapply Forall_impl; [exact Hy|]. intros r Hr. eapply Forall_impl; [exact Hr|]. intros a (v & Ha & Hv). exists v. split; [exact Ha|lia]. }
  destruct (C34_negative_exact_partial d0 [x] y Hc (Forall_cons_2 _ _ _ Hx (Forall_nil_2 _)) Ht ltac:(unfold INT_MAX; change (len [x]) with 1; lia)) as (d & E & _ & Ec).
  eexists d, _. split; [exact E|]. split; [exact Ec|]. destruct (constructed_fresh d0 Hc) as [_ Hf]. destruct Hy as [_ Hy].
  revert Hf Hy Hz. clear. generalize (d_rams d0). intros rs. induction rs as [|r rs IH]; intros Hf Hy Hz; [constructor|].
  apply Forall_cons in Hf as [[Hsh _] Hf]. apply Forall_cons in Hy as [Hy0 Hy]. apply Forall_cons in Hz as [Hz0 Hz].
  cbn [fmap list_fmap]. constructor; [|apply IH; assumption]. unfold alias_vote. rewrite Hz0. cbn [andb]. rewrite count_if_cons, count_if_nil.
  assert (0 <= weigh (r_base r) (r_addresses r) y < W64) as Hw.
  { destruct (valid_index r y Hsh Hy0) as (ds & Hr & Hb & _ & Hrange). rewrite (weigh_enc _ _ _ _ Hr). destruct Hsh as [Hb2 Hwd].
    pose proof (width_pow _ _ Hb2 (len_nonneg _) Hwd). lia. }
  assert (confused (r_base r) (r_addresses r) x y <-> weigh (r_base r) (r_addresses r) x mod 2 ^ 64 = weigh (r_base r) (r_addresses r) y) as Hiff.
  { rewrite confused_index. rewrite (u64_id (weigh _ _ y)) by exact Hw. reflexivity. }
  case_decide as H; [rewrite bool_decide_eq_true_2 by (apply Hiff, H); reflexivity|]. rewrite bool_decide_eq_false_2 by (rewrite Hiff; exact H). reflexivity.
Qed.
Print Assumptions C34_negative_proper_partial.

(** The hypotheses are met, and the votes are not trivial: (-1,1,0,1) and (1,0,-3,1) in base 2 on two RAMs. *)
Example C34_negative_witness : let x := vec_image [-1; 1; 0; 1] in let z := vec_image [1; 0; -3; 1] in let y := vec_image [1; 0; 0; 1] in
  exists d0, disc_new some_draw 2 4 false true [] [[0; 1]; [2; 3]] 2 = Ok d0 /\ constructed d0 /\ takes d0 x /\ takes d0 z /\ valid_image d0 y /\ (((fun r => alias_vote r [x; z] y) <$> d_rams d0) = [2; 1]) /\ (((fun r => alias_vote r [x; z] x) <$> d_rams d0) = [2; 1]) /\
    (((fun r => alias_vote r [x; z] z) <$> d_rams d0) = [2; 1]).
Proof.
  cbv zeta. eexists. split; [vm_compute; reflexivity|]. split.
  { exists some_draw, 2, 4, false, true, [], [[0; 1]; [2; 3]], 2. split; [apply some_draw_valid|]. unfold is_int, INT_MIN, INT_MAX.
    split; [lia|]. split; [lia|]. split; [lia|]. split; [vm_compute; congruence|]. split; [repeat constructor; vm_compute; congruence|]. vm_compute. reflexivity. }
  split; [split; [reflexivity|]; repeat constructor; eexists; (split; [vm_compute; reflexivity|vm_compute; reflexivity])|].
  split; [split; [reflexivity|]; repeat constructor; eexists; (split; [vm_compute; reflexivity|vm_compute; reflexivity])|].
  split; [split; [reflexivity|]; apply Forall_cons_2; [|apply Forall_cons_2; [|apply Forall_nil_2]]; (apply Forall_cons_2; [|apply Forall_cons_2; [|apply Forall_nil_2]]); eexists; (split; [vm_compute; reflexivity|vm_compute; split; [congruence|reflexivity]])|].
  split; [vm_compute; reflexivity|]. split; vm_compute; reflexivity.
Qed.
