(** Plain (non-direction) mode of KernelCanvas: the loops compute the specification. *)
From Coq Require Import SpecFloat.
From Verif Require Import Prelude Float32 Kernel SpecKernel FloatSign KernelFloat Base64Proofs BinProofs DiscCtorProofs.

Lemma vget_lookup {A} (l : list A) (i : Z) x : 0 <= i -> l !! Z.to_nat i = Some x -> vget l i = Ok x.
Proof. intros H E. unfold vget. rewrite E. destruct (Z.leb_spec 0 i); [reflexivity|lia]. Qed.
Lemma seqZ_lookup (n : Z) (j : nat) : (j < Z.to_nat n)%nat -> seqZ 0 n !! j = Some (Z.of_nat j).
Proof. intros H. rewrite lookup_seqZ. lia. Qed.

(** Every row has at least dim entries. *)
Definition wide (dim : Z) (seq : list (list f64)) : Prop := Forall (fun row => dim <= len row) seq.
Lemma shaped_wide dim seq : shaped dim seq -> wide dim seq.
Proof. intros H. eapply Forall_impl; [exact H|]. intros row E. cbv beta in *. lia. Qed.
(** One pass over a row. *)
Lemma over_ok dim row f (g : nat -> f64 -> f64 -> f64) acc : 0 <= dim -> dim <= len row -> len acc = dim ->
  (forall j a x, (j < Z.to_nat dim)%nat -> acc !! j = Some a -> row !! j = Some x -> f (Z.of_nat j) a x = Ok (g j a x)) ->
  exists out, kc_over dim row f acc = Ok out /\ len out = dim /\
    forall (j : nat) a x, acc !! j = Some a -> row !! j = Some x -> out !! j = Some (g j a x).
Proof.
  intros Hd Hr Ha Hf. exists ((fun j => g (Z.to_nat j) (nth (Z.to_nat j) acc S754_nan) (nth (Z.to_nat j) row S754_nan)) <$> seqZ 0 dim). split; [|split].
  - apply rmapM_total. intros j Hj. apply elem_of_seqZ in Hj.
    destruct (vget_some acc j) as (a & Ea & ->); [lia|]. destruct (vget_some row j) as (x & Ex & ->); [lia|]. cbn [rbind].
    rewrite (nth_lookup_Some acc _ _ _ Ea), (nth_lookup_Some row _ _ _ Ex). rewrite <- (Hf (Z.to_nat j) a x); [f_equal; lia|lia|assumption..].
  - unfold len. rewrite fmap_length, seqZ_length. lia.
  - intros j a x Ea Ex. pose proof (lookup_lt_Some _ _ _ Ea). rewrite list_lookup_fmap, seqZ_lookup by (unfold len in *; lia). cbn. rewrite Nat2Z.id.
    rewrite (nth_lookup_Some acc _ _ _ Ea), (nth_lookup_Some row _ _ _ Ex). reflexivity.
Qed.
Lemma fold_ok dim f (g : nat -> f64 -> f64 -> f64) seq : 0 <= dim ->
  (forall j a x, (j < Z.to_nat dim)%nat -> f (Z.of_nat j) a x = Ok (g j a x)) -> wide dim seq ->
  forall acc, len acc = dim -> exists out, kc_fold dim f acc seq = Ok out /\ len out = dim /\
    forall (j : nat) a, acc !! j = Some a -> out !! j = Some (foldl (g j) a (column seq j)).
Proof.
  intros Hd Hf HS. induction HS as [|row seq Hr HS IH]; intros acc Ha; cbn [kc_fold].
  - exists acc. split; [reflexivity|]. split; [exact Ha|]. intros j a Hj. exact Hj.
  - destruct (over_ok dim row f g acc Hd Hr Ha) as (acc' & -> & Ha' & Hl); [intros; apply Hf; assumption|]. cbn [rbind].
    destruct (IH acc' Ha') as (out & -> & Ho & Hl'). exists out. split; [reflexivity|]. split; [exact Ho|].
    intros j a Hj. pose proof (lookup_lt_Some _ _ _ Hj) as Hlt. destruct (lookup_lt_is_Some_2 row j) as [x Hx]; [unfold len in *; lia|].
    rewrite (Hl' j _ (Hl j a x Hj Hx)). unfold column. rewrite fmap_cons. cbn [foldl]. rewrite (nth_lookup_Some row _ _ _ Hx). reflexivity.
Qed.
Lemma repeat_lookup {A} (x : A) : forall n i, (i < n)%nat -> repeat x n !! i = Some x.
Proof. induction n as [|n IH]; intros [|i] H; cbn; [lia|lia|reflexivity|apply IH; lia]. Qed.
Lemma zeros_lookup (dim : Z) (j : nat) : (j < Z.to_nat dim)%nat -> repeat f64_zero (Z.to_nat dim) !! j = Some f64_zero.
Proof. intros H. apply repeat_lookup. exact H. Qed.
Lemma column_len seq j : len (column seq j) = len seq.
Proof. unfold len, column. rewrite fmap_length. reflexivity. Qed.

(** The vector of a per-column statistic. *)
Definition per_column (dim : Z) (stat : list f64 -> f64) (seq : list (list f64)) (v : list f64) : Prop :=
  len v = dim /\ forall j : nat, (j < Z.to_nat dim)%nat -> v !! j = Some (stat (column seq j)).
Lemma mean_ok dim seq : 0 <= dim -> wide dim seq -> exists means, kc_mean dim seq = Ok means /\ per_column dim mean_of seq means.
Proof.
  intros Hd HS. unfold kc_mean.
  destruct (fold_ok dim (fun _ a x => Ok (f64_add a x)) (fun _ a x => f64_add a x) seq Hd (fun _ _ _ _ => eq_refl) HS (repeat f64_zero (Z.to_nat dim))) as (s & -> & Hl & Hs);
    [unfold len; rewrite repeat_length; lia|]. cbn [rbind]. eexists. split; [reflexivity|]. split; [unfold len in *; rewrite fmap_length; exact Hl|].
  intros j Hj. rewrite list_lookup_fmap, (Hs j f64_zero (zeros_lookup dim j Hj)). cbn. unfold mean_of. rewrite column_len. reflexivity.
Qed.
Lemma std_ok dim seq means : 0 <= dim -> wide dim seq -> per_column dim mean_of seq means ->
  exists stds, kc_std dim means seq = Ok stds /\ per_column dim std_of seq stds.
Proof.
  intros Hd HS [Hml Hm]. unfold kc_std.
  destruct (fold_ok dim (fun j a x => let* m := vget means j in let diff := f64_sub m x in Ok (f64_add a (f64_mul diff diff)))
     (fun j a x => f64_add a (square (f64_sub (mean_of (column seq j)) x))) seq Hd) with (acc := repeat f64_zero (Z.to_nat dim)) as (s & E & Hl & Hs).
  - intros j a x Hj. rewrite (vget_lookup means (Z.of_nat j) (mean_of (column seq j))); [reflexivity|lia|rewrite Nat2Z.id; apply Hm, Hj].
  - exact HS.
  - unfold len; rewrite repeat_length; lia.
  - match goal with |- context [kc_fold dim ?f ?a seq] => replace (kc_fold dim f a seq) with (Ok s) by (symmetry; exact E) end. cbn [rbind]. eexists. split; [reflexivity|]. split; [unfold len in *; rewrite fmap_length; exact Hl|].
    intros j Hj. rewrite list_lookup_fmap, (Hs j f64_zero (zeros_lookup dim j Hj)). cbn. unfold std_of. rewrite column_len. reflexivity.
Qed.

Definition plain (kc : kcanvas) : Prop := kc_useDirection kc = false.
Lemma point_ok tanh kc point row row' seq means stds ixs : 0 <= kc_dim kc -> plain kc -> len point = kc_dim kc -> len row = kc_dim kc ->
  per_column (kc_dim kc) mean_of seq means -> per_column (kc_dim kc) std_of seq stds ->
  kc_point tanh kc point row row' means stds ixs = Ok (normalised tanh seq row, ixs).
Proof.
  intros Hd Hp Hpl Hr [_ Hm] [_ Hs]. unfold kc_point. rewrite Hp.
  destruct (over_ok (kc_dim kc) row (fun j _ _ => kc_norm tanh means stds row j)
    (fun j _ x => tanh (f64_div (f64_sub (mean_of (column seq j)) x) (std_of (column seq j)))) point Hd ltac:(lia) Hpl) as (out & -> & Ho & Hl).
  - intros j a x Hj _ Hx. unfold kc_norm. rewrite (vget_lookup means _ (mean_of (column seq j))) by (rewrite ?Nat2Z.id; auto; lia). cbn [rbind].
    rewrite (vget_lookup row _ x) by (rewrite ?Nat2Z.id; auto; lia). cbn [rbind].
    rewrite (vget_lookup stds _ (std_of (column seq j))) by (rewrite ?Nat2Z.id; auto; lia). reflexivity.
  - cbn [rbind]. do 2 f_equal. apply list_eq. intros j. unfold normalised. rewrite list_lookup_imap. destruct (row !! j) as [x|] eqn:Ex.
    + pose proof (lookup_lt_Some _ _ _ Ex). destruct (lookup_lt_is_Some_2 point j) as [a Ea]; [unfold len in *; lia|]. rewrite (Hl j a x Ea Ex). reflexivity.
    + cbn. apply lookup_ge_None in Ex. apply lookup_ge_None_2. unfold len in *. lia.
Qed.
Lemma normalised_len tanh seq row : length (normalised tanh seq row) = length row.
Proof. apply imap_length. Qed.

Lemma vget_mid {A} (l1 l2 : list A) x : vget (l1 ++ x :: l2) (Z.of_nat (length l1)) = Ok x.
Proof. rewrite vget_nat, list_lookup_middle by reflexivity. reflexivity. Qed.
Lemma dist_plain_ok : forall p q pre1 pre2 d, length p = length q -> length pre1 = length pre2 ->
  kc_dist_plain (seqZ (len pre1) (len p)) (pre1 ++ p) (pre2 ++ q) d = Ok (foldl sqd d (zip p q)).
Proof.
  induction p as [|x p IH]; intros q pre1 pre2 d Hl Hpre; destruct q as [|y q]; try discriminate; [reflexivity|].
  unfold len at 2. cbn [length]. rewrite Nat2Z.inj_succ. rewrite seqZ_cons by lia. cbn [kc_dist_plain]. unfold len at 1. rewrite vget_mid. cbn [rbind].
  unfold len at 1. rewrite Hpre, vget_mid. cbn [rbind]. cbn [zip zip_with foldl].
  specialize (IH q (pre1 ++ [x]) (pre2 ++ [y]) (sqd d (x, y))). rewrite <- !app_assoc in IH. cbn [app] in IH. cbn [sqd] in IH |- *.
  rewrite <- IH; [|injection Hl; auto|rewrite !app_length; cbn; lia]. f_equal. rewrite Z.pred_succ. unfold len. rewrite app_length. cbn. f_equal. lia.
Qed.
Lemma distance_ok kc p ixs q : plain kc -> len p = kc_dim kc -> len q = kc_dim kc -> kc_distance kc p ixs q = Ok (distance p q).
Proof.
  intros Hp Hl Hq. unfold kc_distance. rewrite Hp. rewrite <- Hl. assert (E : kc_dist_plain (seqZ 0 (len p)) p q f64_zero = Ok (foldl sqd f64_zero (zip p q))).
  { apply (dist_plain_ok p q [] [] f64_zero); [unfold len in *; lia|reflexivity]. }
  unfold f64 in *. rewrite E. reflexivity.
Qed.
Lemma distances_ok kc p ixs : plain kc -> len p = kc_dim kc -> Forall (fun q => len q = kc_dim kc) (kc_kernels kc) ->
  kc_distances kc p ixs = Ok (zip (seqZ 0 (len (kc_kernels kc))) (distance p <$> kc_kernels kc)).
Proof.
  intros Hp Hl HF. unfold kc_distances. rewrite (rmapM_total _ (distance p)); [reflexivity|]. intros q Hq. rewrite Forall_forall in HF. apply distance_ok; auto.
Qed.

(** std::sort is given a strict weak order. *)
Lemma distance_kind p : (forall q, Forall finite q -> length p = length q -> fpos (distance p q)) \/ (forall q, length p = length q -> distance p q = S754_nan).
Proof.
  assert (Hdec : forall x : f64, Decision (x = S754_nan)) by (intros [| | |]; [right; discriminate|right; discriminate|left; reflexivity|right; discriminate]).
  destruct (decide (Exists (fun x => x = S754_nan) p)) as [HE|HN].
  - right. intros q Hl. unfold distance. change (foldl _ _ _) with (foldl sqd f64_zero (zip p q)). rewrite sqd_nan; [reflexivity|].
    apply Exists_exists in HE as (x & Hx & ->). apply elem_of_list_lookup in Hx as [i Hi].
    destruct (lookup_lt_is_Some_2 q i) as [y Hy]; [rewrite <- Hl; apply lookup_lt_Some in Hi; exact Hi|].
    apply Exists_exists. exists (S754_nan, y). split; [|reflexivity]. apply elem_of_list_lookup. exists i. apply lookup_zip_with_Some. eauto.
  - left. intros q Hq Hl. unfold distance. change (foldl _ _ _) with (foldl sqd f64_zero (zip p q)). apply sqrt_pos, sqd_pos; [exact I|].
    apply Forall_forall. intros [x y] Hxy. apply elem_of_list_lookup in Hxy as [i Hi]. apply lookup_zip_with_Some in Hi as (x' & y' & E & Hx & Hy). injection E as -> ->.
    cbn. split; [|rewrite Forall_forall in Hq; apply Hq, elem_of_list_lookup; eauto].
    intros ->. apply HN, Exists_exists. exists S754_nan. split; [apply elem_of_list_lookup; eauto|reflexivity].
Qed.
Lemma sort_ok srt kc p : Forall (fun q => len q = len p /\ Forall finite q) (kc_kernels kc) ->
  let l := zip (seqZ 0 (len (kc_kernels kc))) (distance p <$> kc_kernels kc) in kc_sort srt l = Ok (srt l) /\ strict_weak kc_less l = true.
Proof.
  intros HF l. assert (Hsw : strict_weak kc_less l = true); [|unfold kc_sort; rewrite Hsw; auto].
  assert (Hin : forall a, a ∈ l -> exists q, q ∈ kc_kernels kc /\ a.2 = distance p q).
  { intros [k d] Ha. apply elem_of_list_lookup in Ha as [i Hi]. apply lookup_zip_with_Some in Hi as (x & y & E & _ & Hy). injection E as -> ->.
    rewrite list_lookup_fmap in Hy. destruct (kc_kernels kc !! i) as [q|] eqn:Eq; [|discriminate]. injection Hy as <-. exists q. split; [apply elem_of_list_lookup; eauto|reflexivity]. }
  rewrite Forall_forall in HF.
  destruct (distance_kind p) as [Hk|Hk]; [apply strict_weak_pos|apply strict_weak_nan]; apply Forall_forall; intros a Ha; destruct (Hin a Ha) as (q & Hq & Ed); destruct (HF q Hq) as [Hl Hf];
    (assert (length p = length q) by (unfold len in *; lia)); unfold f64 in *; rewrite Ed; auto.
Qed.

(** ** Activation *)
(** [A] is the list of kernels whose block is on. *)
Definition blocks (n bits : Z) (A : list Z) (out : list Z) : Prop :=
  len out = n * bits /\
  forall k b, 0 <= k < n -> 0 <= b < bits -> out !! Z.to_nat (k * bits + b) = Some (if bool_decide (k ∈ A) then 1 else 0).
Lemma fill_ok : forall (c : nat) base k out, 0 <= base -> 0 <= k -> base + k + Z.of_nat c <= len out -> len out <= INT_MAX ->
  exists out', kc_fill (seqZ k (Z.of_nat c)) base out = Ok out' /\ len out' = len out /\
    forall i, 0 <= i -> out' !! Z.to_nat i = if bool_decide (base + k <= i < base + k + Z.of_nat c) then Some 1 else out !! Z.to_nat i.
Proof.
  induction c as [|c IH]; intros base k out Hb Hk Hlen Hmax.
  - exists out. split; [reflexivity|]. split; [reflexivity|]. intros i Hi. rewrite bool_decide_eq_false_2 by lia. reflexivity.
  - rewrite Nat2Z.inj_succ, seqZ_cons by lia. cbn [kc_fill]. unfold int_of. replace (in_int (base + k)) with true by (unfold in_int, INT_MIN, INT_MAX in *; lia). cbn [rbind].
    unfold vput. replace ((0 <=? base + k) && (base + k <? len out)) with true by lia. cbn [rbind].
    assert (Hl : len (<[Z.to_nat (base + k):=1]> out) = len out) by (unfold len; rewrite insert_length; reflexivity).
    destruct (IH base (Z.succ k) (<[Z.to_nat (base + k):=1]> out)) as (out' & E & Hl' & H); [lia|lia|lia|lia|].
    rewrite Z.pred_succ, E. exists out'. split; [reflexivity|]. split; [lia|]. intros i Hi. rewrite H by exact Hi.
    destruct (decide (i = base + k)) as [->|Hn].
    + rewrite bool_decide_eq_false_2 by lia. rewrite bool_decide_eq_true_2 by lia. rewrite list_lookup_insert; [reflexivity|unfold len in *; lia].
    + rewrite list_lookup_insert_ne by lia. destruct (decide (base + Z.succ k <= i < base + Z.succ k + Z.of_nat c)) as [?|?].
      * rewrite !bool_decide_eq_true_2 by lia. reflexivity.
      * rewrite !bool_decide_eq_false_2 by lia. reflexivity.
Qed.
Lemma block_unique bits k k' b b' : 0 <= b < bits -> 0 <= b' < bits -> k * bits + b = k' * bits + b' -> k = k'.
Proof. intros H H' E. assert (k = (k * bits + b) / bits) by (rewrite Z.div_add_l by lia; rewrite Z.div_small by lia; lia). rewrite H0, E. rewrite Z.div_add_l by lia. rewrite Z.div_small by lia. lia. Qed.
Lemma block_in n bits k b : 0 <= k < n -> 0 <= b < bits -> 0 <= k * bits + b < n * bits.
Proof. intros. nia. Qed.
Lemma activate_ok n bits : 0 < bits -> n * bits <= INT_MAX ->
  forall (c : nat) i (L : list (Z * f64)) A out, 0 <= i -> i + Z.of_nat c <= len L -> Forall (fun a => 0 <= a.1 < n) L -> blocks n bits A out ->
  exists out', kc_activate (seqZ i (Z.of_nat c)) bits L out = Ok out' /\ blocks n bits (A ++ take c (drop (Z.to_nat i) L.*1)) out'.
Proof.
  intros Hb Hmax. induction c as [|c IH]; intros i L A out Hi Hlen HF HB.
  - exists out. split; [reflexivity|]. rewrite take_0, app_nil_r. exact HB.
  - rewrite Nat2Z.inj_succ, seqZ_cons by lia. cbn [kc_activate].
    destruct (vget_some L i) as (a & Ea & Ev); [lia|]. pose proof (Forall_lookup_1 _ _ _ _ HF Ea) as Hk. cbv beta in Hk. revert Ev. intros ->. cbn [rbind]. set (k := a.1) in *.
    pose proof (block_in n bits k 0 Hk ltac:(lia)) as Hin. rewrite Z.add_0_r in Hin.
    unfold int_of. replace (in_int (k * bits)) with true by (unfold in_int, INT_MIN, INT_MAX in *; lia). cbn [rbind].
    destruct HB as [HBl HB]. pose proof (HB k 0 Hk ltac:(lia)) as H0. rewrite Z.add_0_r in H0. rewrite (vget_lookup out _ _ (proj1 Hin) H0). cbn [rbind].
    assert (G : exists out', (if (if bool_decide (k ∈ A) then 1 else 0) =? 1 then Ok out else kc_fill (seqZ 0 bits) (k * bits) out) = Ok out' /\ blocks n bits (A ++ [k]) out').
    { destruct (decide (k ∈ A)) as [HA|HA].
      - rewrite bool_decide_eq_true_2 by exact HA. exists out. split; [reflexivity|]. split; [exact HBl|]. intros k' b Hk' Hb'. rewrite HB by assumption.
        rewrite (bool_decide_ext (k' ∈ A) (k' ∈ A ++ [k])); [reflexivity|]. rewrite elem_of_app, elem_of_list_singleton. split; [auto|intros [?| ->]; auto].
      - rewrite bool_decide_eq_false_2 by exact HA. cbn [Z.eqb]. 
        destruct (fill_ok (Z.to_nat bits) (k * bits) 0 out) as (out' & E & Hl & H); [lia|lia|nia|lia|]. rewrite Z2Nat.id in E, H by lia. exists out'. split; [exact E|].
        split; [lia|]. intros k' b Hk' Hb'. pose proof (block_in n bits k' b Hk' Hb'). rewrite H by lia. rewrite Z.add_0_r. destruct (decide (k' = k)) as [->|Hn].
        + rewrite bool_decide_eq_true_2 by lia. rewrite bool_decide_eq_true_2; [reflexivity|]. apply elem_of_app. right. apply elem_of_list_singleton. reflexivity.
        + rewrite bool_decide_eq_false_2; [rewrite HB by assumption; rewrite (bool_decide_ext (k' ∈ A) (k' ∈ A ++ [k])); [reflexivity|]; rewrite elem_of_app, elem_of_list_singleton; tauto|].
          intros Hr. apply Hn. apply (block_unique bits k' k b (k' * bits + b - k * bits) Hb'); lia. }
    destruct G as (out' & -> & HB'). cbn [rbind]. rewrite Z.pred_succ.
    destruct (IH (Z.succ i) L (A ++ [k]) out') as (out'' & E & HB''); [lia|lia|exact HF|exact HB'|]. rewrite E. exists out''. split; [reflexivity|].
    assert (Ed : take (S c) (drop (Z.to_nat i) L.*1) = k :: take c (drop (Z.to_nat (Z.succ i)) L.*1)).
    { rewrite (drop_S L.*1 k); [|rewrite list_lookup_fmap, Ea; reflexivity]. cbn [take]. do 2 f_equal. f_equal. lia. }
    rewrite Ed. rewrite <- app_assoc in HB''. exact HB''.
Qed.

(** ** The chosen kernels are nearest ones *)
Lemma chosen_nearest srt kernels p c : sorts srt ->
  let l := zip (seqZ 0 (len kernels)) (distance p <$> kernels) in
  strict_weak kc_less l = true -> 0 <= c <= len kernels -> nearest kernels p c (take (Z.to_nat c) (srt l).*1) /\ Forall (fun a => 0 <= a.1 < len kernels) (srt l) /\ len (srt l) = len kernels.
Proof.
  intros HS l Hsw Hc. destruct (HS l Hsw) as [HP Hsorted].
  assert (Hlen : length l = length kernels). { unfold l. rewrite zip_with_length, seqZ_length, fmap_length. unfold len. lia. }
  assert (Hl1 : l.*1 = seqZ 0 (len kernels)). { unfold l. rewrite fst_zip; [reflexivity|]. rewrite seqZ_length, fmap_length. unfold len. lia. }
  assert (HP1 : Permutation (seqZ 0 (len kernels)) (srt l).*1). { rewrite <- Hl1. apply fmap_Permutation, HP. }
  assert (Hval : forall a, a ∈ srt l -> exists q, 0 <= a.1 < len kernels /\ kernels !! Z.to_nat a.1 = Some q /\ a.2 = distance p q).
  { intros [k d] Ha. rewrite <- HP in Ha. apply elem_of_list_lookup in Ha as [i Hi]. apply lookup_zip_with_Some in Hi as (x & y & E & Hx & Hy). injection E as -> ->.
    apply lookup_seqZ in Hx as [-> Hx]. rewrite list_lookup_fmap in Hy. destruct (kernels !! i) as [q|] eqn:Eq; [|discriminate]. injection Hy as <-. exists q. cbn. split; [lia|]. split; [|reflexivity].
    replace (Z.to_nat (0 + Z.of_nat i)) with i by lia. exact Eq. }
  assert (HND : NoDup (srt l).*1). { rewrite <- HP1. apply NoDup_seqZ. }
  assert (Hsl : length (srt l) = length kernels). { rewrite <- HP. exact Hlen. }
  split; [|split].
  - split; [|split; [|split]].
    + rewrite <- (take_drop (Z.to_nat c) (srt l).*1) in HND. apply NoDup_app in HND. tauto.
    + unfold len in *. rewrite take_length, fmap_length. lia.
    + apply Forall_forall. intros k Hk.
      assert (Hk' : k ∈ (srt l).*1) by (eapply elem_of_take in Hk; destruct Hk as (i & Hi & _); apply elem_of_list_lookup; eauto).
      rewrite <- HP1 in Hk'. apply elem_of_seqZ in Hk'. lia.
    + intros k k' q q' Hk Hk' Hq Hk'0 Hq'. apply elem_of_take in Hk as (i & Hi & Hic). rewrite list_lookup_fmap in Hi. destruct (srt l !! i) as [a|] eqn:Ea; [|discriminate]. injection Hi as Hi.
      assert (Hin : k' ∈ (srt l).*1). { rewrite <- HP1. apply elem_of_seqZ. apply lookup_lt_Some in Hq'. unfold len. lia. }
      apply elem_of_list_lookup in Hin as [j Hj]. rewrite list_lookup_fmap in Hj. destruct (srt l !! j) as [b|] eqn:Eb; [|discriminate]. injection Hj as Hj.
      assert (Hij : (i < j)%nat).
      { destruct (decide (j < Z.to_nat c)%nat) as [Hjc|]; [|lia]. exfalso. apply Hk'. apply elem_of_take. exists j. split; [|exact Hjc]. rewrite list_lookup_fmap, Eb. cbn. congruence. }
      pose proof (Hsorted i j a b Hij Ea Eb) as HL. unfold kc_less in HL.
      destruct (Hval a) as (qa & _ & Hqa & Hda); [apply elem_of_list_lookup; eauto|]. destruct (Hval b) as (qb & _ & Hqb & Hdb); [apply elem_of_list_lookup; eauto|].
      subst k k'. rewrite Hq in Hqa. injection Hqa as <-. rewrite Hq' in Hqb. injection Hqb as <-. unfold f64 in *. rewrite Hda, Hdb in HL. exact HL.
  - apply Forall_forall. intros a Ha. destruct (Hval a Ha) as (q & H & _). exact H.
  - unfold len. lia.
Qed.

(** ** transform *)
Definition canvas_ok (kc : kcanvas) : Prop :=
  plain kc /\ 0 < kc_dim kc /\ 0 < kc_bitsByKernel kc /\ 0 <= kc_nact kc <= len (kc_kernels kc) /\ 0 < len (kc_kernels kc) /\
  len (kc_kernels kc) * kc_bitsByKernel kc <= INT_MAX /\ Forall (fun q => len q = kc_dim kc /\ Forall finite q) (kc_kernels kc).
Lemma step_ok tanh srt kc seq means stds row rows point ixs A out : sorts srt -> canvas_ok kc ->
  per_column (kc_dim kc) mean_of seq means -> per_column (kc_dim kc) std_of seq stds -> len row = kc_dim kc ->
  len point = kc_dim kc -> blocks (len (kc_kernels kc)) (kc_bitsByKernel kc) A out ->
  exists p out' S, kc_loop srt tanh kc means stds (row :: rows) point ixs out = kc_loop srt tanh kc means stds rows p ixs out' /\ len p = kc_dim kc /\
    nearest (kc_kernels kc) (normalised tanh seq row) (kc_nact kc) S /\ blocks (len (kc_kernels kc)) (kc_bitsByKernel kc) (A ++ S) out'.
Proof.
  intros HS (Hp & Hd & Hb & Hn & Hk & Hmax & HF) Hm Hs Hr Hpl HB. cbn [kc_loop]. rewrite Hr, Z.eqb_refl. cbn [negb].
  rewrite (point_ok tanh kc point row (head rows) seq means stds ixs) by (assumption || lia). cbn [rbind]. set (p := normalised tanh seq row).
  assert (Hpl' : len p = kc_dim kc) by (unfold p, len in *; rewrite normalised_len; exact Hr).
  rewrite distances_ok; [|exact Hp|exact Hpl'|eapply Forall_impl; [exact HF|intros q [H _]; exact H]]. cbn [rbind].
  destruct (sort_ok srt kc p) as [E Hsw]; [eapply Forall_impl; [exact HF|]; intros q [H1 H2]; split; [lia|exact H2]|]. cbv zeta in E, Hsw. rewrite E. cbn [rbind].
  destruct (chosen_nearest srt (kc_kernels kc) p (kc_nact kc) HS Hsw Hn) as (Hnear & Hin & Hlen).
  set (L := srt _) in *. destruct (activate_ok (len (kc_kernels kc)) (kc_bitsByKernel kc) Hb Hmax (Z.to_nat (kc_nact kc)) 0 L A out) as (out' & Ea & HB'); [lia|lia|exact Hin|exact HB|].
  rewrite Z2Nat.id in Ea by lia. rewrite Ea. cbn [rbind]. exists p, out', (take (Z.to_nat (kc_nact kc)) L.*1). split; [reflexivity|]. split; [exact Hpl'|]. split; [exact Hnear|exact HB'].
Qed.
Lemma loop_ok tanh srt kc seq means stds : sorts srt -> canvas_ok kc ->
  per_column (kc_dim kc) mean_of seq means -> per_column (kc_dim kc) std_of seq stds ->
  forall rows point ixs A out, shaped (kc_dim kc) rows -> len point = kc_dim kc -> blocks (len (kc_kernels kc)) (kc_bitsByKernel kc) A out ->
  exists out' chosen, kc_loop srt tanh kc means stds rows point ixs out = Ok out' /\
    Forall2 (fun row S => nearest (kc_kernels kc) (normalised tanh seq row) (kc_nact kc) S) rows chosen /\
    blocks (len (kc_kernels kc)) (kc_bitsByKernel kc) (A ++ concat chosen) out'.
Proof.
  intros HS HC Hm Hs. induction rows as [|row rows IH]; intros point ixs A out HR Hpl HB.
  - exists out, []. split; [reflexivity|]. split; [constructor|]. cbn. rewrite app_nil_r. exact HB.
  - apply Forall_cons in HR as [Hr HR]. destruct (step_ok tanh srt kc seq means stds row rows point ixs A out HS HC Hm Hs Hr Hpl HB) as (p & out' & S & -> & Hpl' & HN & HB').
    destruct (IH p ixs _ out' HR Hpl' HB') as (out'' & chosen & E'' & HF2 & HB''). rewrite E''.
    exists out'', (S :: chosen). split; [reflexivity|]. split; [constructor; assumption|]. cbn [concat]. rewrite app_assoc. exact HB''.
Qed.
Definition dim_exn : exn := EWisard "Error: the dimension of input data is defferent of kernel's dimension!".
Lemma loop_bad tanh srt kc seq means stds : sorts srt -> canvas_ok kc ->
  per_column (kc_dim kc) mean_of seq means -> per_column (kc_dim kc) std_of seq stds ->
  forall rows point ixs A out, Exists (fun row => len row <> kc_dim kc) rows -> len point = kc_dim kc -> blocks (len (kc_kernels kc)) (kc_bitsByKernel kc) A out ->
  kc_loop srt tanh kc means stds rows point ixs out = Throw dim_exn.
Proof.
  intros HS HC Hm Hs. induction rows as [|row rows IH]; intros point ixs A out HE Hpl HB; [inversion HE|].
  destruct (decide (len row = kc_dim kc)) as [Hr|Hr].
  - apply Exists_cons in HE as [HE|HE]; [contradiction|]. destruct (step_ok tanh srt kc seq means stds row rows point ixs A out HS HC Hm Hs Hr Hpl HB) as (p & out' & S & -> & Hpl' & _ & HB').
    exact (IH p ixs _ out' HE Hpl' HB').
  - cbn [kc_loop]. destruct (Z.eqb_spec (len row) (kc_dim kc)); [contradiction|]. reflexivity.
Qed.
Lemma blocks_init kc : 0 < kc_bitsByKernel kc -> blocks (len (kc_kernels kc)) (kc_bitsByKernel kc) [] (repeat 0 (Z.to_nat (len (kc_kernels kc) * kc_bitsByKernel kc))).
Proof.
  intros Hb. split; [unfold len; rewrite repeat_length; nia|]. intros k b Hk' Hb'. rewrite repeat_lookup; [reflexivity|]. pose proof (block_in _ _ _ _ Hk' Hb'). lia.
Qed.
Theorem transform_ok tanh srt kc seq : sorts srt -> canvas_ok kc -> shaped (kc_dim kc) seq ->
  exists out chosen, kc_transform srt tanh kc seq = Ok out /\
    Forall2 (fun row S => nearest (kc_kernels kc) (normalised tanh seq row) (kc_nact kc) S) seq chosen /\
    blocks (len (kc_kernels kc)) (kc_bitsByKernel kc) (concat chosen) out.
Proof.
  intros HS HC HR. pose proof HC as (Hp & Hd & Hb & Hn & Hk & Hmax & HF). unfold kc_transform.
  destruct (mean_ok (kc_dim kc) seq ltac:(lia) (shaped_wide _ _ HR)) as (means & -> & Hm). cbn [rbind]. destruct (std_ok (kc_dim kc) seq means ltac:(lia) (shaped_wide _ _ HR) Hm) as (stds & -> & Hs). cbn [rbind].
  destruct (vget_some (kc_kernels kc) 0) as (k0 & Ek & ->); [lia|]. cbn [rbind].
  pose proof (Forall_lookup_1 _ _ _ _ HF Ek) as [Hk0 _].
  destruct (loop_ok tanh srt kc seq means stds HS HC Hm Hs seq (repeat f64_zero (length k0)) [2; 1; 0] [] (repeat 0 (Z.to_nat (len (kc_kernels kc) * kc_bitsByKernel kc)))) as (out & chosen & E & HF2 & HB).
  - exact HR.
  - unfold len in *. rewrite repeat_length. exact Hk0.
  - split; [unfold len; rewrite repeat_length; nia|]. intros k b Hk' Hb'. rewrite repeat_lookup; [reflexivity|]. pose proof (block_in _ _ _ _ Hk' Hb'). lia.
  - exists out, chosen. auto.
Qed.

Theorem transform_bad tanh srt kc seq : sorts srt -> canvas_ok kc -> wide (kc_dim kc) seq -> ~ shaped (kc_dim kc) seq ->
  kc_transform srt tanh kc seq = Throw dim_exn.
Proof.
  intros HS HC HW HN. pose proof HC as (Hp & Hd & Hb & Hn & Hk & Hmax & HF). unfold kc_transform.
  destruct (mean_ok (kc_dim kc) seq ltac:(lia) HW) as (means & -> & Hm). cbn [rbind]. destruct (std_ok (kc_dim kc) seq means ltac:(lia) HW Hm) as (stds & -> & Hs). cbn [rbind].
  destruct (vget_some (kc_kernels kc) 0) as (k0 & Ek & ->); [lia|]. cbn [rbind].
  pose proof (Forall_lookup_1 _ _ _ _ HF Ek) as [Hk0 _].
  apply (loop_bad tanh srt kc seq means stds HS HC Hm Hs seq _ _ []); [|unfold len in *; rewrite repeat_length; exact Hk0|apply blocks_init, Hb].
  unfold shaped in HN. apply not_Forall_Exists in HN; [exact HN|]. intros row. apply _.
Qed.
