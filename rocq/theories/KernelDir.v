(** Direction mode, too many activations, rows of the wrong length. *)
From Coq Require Import SpecFloat.
From Verif Require Import Prelude Float32 Kernel SpecKernel FloatSign KernelFloat Base64Proofs BinProofs DiscCtorProofs KernelProofs.

(** ** Computations that end or are undefined, but never throw *)
Definition is_ub {A} (r : res A) : Prop := exists u, r = UB u.
Definition quiet {A} (r : res A) : Prop := (exists a, r = Ok a) \/ is_ub r.
Lemma quiet_ok {A} (a : A) : quiet (Ok a). Proof. left. eauto. Qed.
Lemma quiet_ub {A} u : quiet (@UB A u). Proof. right. exists u. reflexivity. Qed.
Lemma quiet_bind {A B} (m : res A) (k : A -> res B) : quiet m -> (forall a, m = Ok a -> quiet (k a)) -> quiet (rbind m k).
Proof. intros [[a ->]|[u ->]] H; [apply H; reflexivity|apply quiet_ub]. Qed.
Lemma ub_bind {A B} (m : res A) (k : A -> res B) : quiet m -> (forall a, m = Ok a -> is_ub (k a)) -> is_ub (rbind m k).
Proof. intros [[a ->]|[u ->]] H; [apply H; reflexivity|exists u; reflexivity]. Qed.
Lemma quiet_vget {A} (l : list A) i : quiet (vget l i).
Proof. unfold vget. destruct (0 <=? i); [destruct (l !! Z.to_nat i)|]; (apply quiet_ok || apply quiet_ub). Qed.
Lemma quiet_vput {A} (l : list A) i x : quiet (vput l i x).
Proof. unfold vput. destruct (_ && _); (apply quiet_ok || apply quiet_ub). Qed.
Lemma quiet_int z : quiet (int_of z).
Proof. unfold int_of. destruct (in_int z); (apply quiet_ok || apply quiet_ub). Qed.
Lemma quiet_rmapM {A B} (f : A -> res B) l : (forall x, quiet (f x)) -> quiet (rmapM f l).
Proof. intros H. induction l as [|x l IH]; cbn [rmapM]; [apply quiet_ok|]. apply quiet_bind; [apply H|]. intros y _. apply quiet_bind; [exact IH|]. intros ys _. apply quiet_ok. Qed.
Ltac quiet := repeat first [apply quiet_ok | apply quiet_ub | apply quiet_vget | apply quiet_vput | apply quiet_int | apply quiet_rmapM; intros ? | apply quiet_bind; [|intros ? _] ].

Lemma vput_len {A} (l l' : list A) i x : vput l i x = Ok l' -> len l' = len l.
Proof. unfold vput. destruct (_ && _); [|discriminate]. intros E. injection E as <-. unfold len. rewrite insert_length. reflexivity. Qed.
Lemma vput_oob {A} (l : list A) i x : len l <= i -> vput l i x = UB UBIndex.
Proof. intros H. unfold vput. replace ((0 <=? i) && (i <? len l)) with false by lia. reflexivity. Qed.
Lemma vget_oob {A} (l : list A) i : len l <= i -> vget l i = UB UBIndex.
Proof. intros H. unfold vget, len in *. destruct (Z.leb_spec 0 i); [|reflexivity]. rewrite lookup_ge_None_2 by lia. reflexivity. Qed.

Lemma quiet_norm tanh ms ss row j : quiet (kc_norm tanh ms ss row j).
Proof. unfold kc_norm. quiet. Qed.
Lemma direction_quiet tanh dim amp ms ss row row' ixs : forall js point ab af ipp, quiet (kc_direction tanh js dim amp ms ss row row' ixs point ab af ipp) /\
  forall p i, kc_direction tanh js dim amp ms ss row row' ixs point ab af ipp = Ok (p, i) -> len p = len point.
Proof.
  induction js as [|j js IH]; intros point ab af ipp; cbn [kc_direction]; [split; [apply quiet_ok|intros p i E; injection E as <- _; reflexivity]|].
  split.
  - repeat (apply quiet_bind; [first [apply quiet_int|apply quiet_norm|apply quiet_vput]|intros ? _]). apply quiet_bind.
    + destruct row'; [apply quiet_bind; [apply quiet_norm|intros ? _]|]; quiet.
    + intros [? ?] _. apply IH.
  - intros p i. do 2 (destruct (int_of _) as [?| | |]; cbn [rbind]; try discriminate).
    destruct (kc_norm _ _ _ _ _) as [t| | |]; cbn [rbind]; try discriminate. destruct (vput point (ipp + 1) t) as [p1| | |] eqn:E1; cbn [rbind]; try discriminate.
    destruct row' as [next|].
    + destruct (kc_norm _ _ _ _ _) as [t2| | |]; cbn [rbind]; try discriminate. destruct (vget p1 ipp) as [?| | |]; cbn [rbind]; try discriminate.
      destruct (vget p1 (ipp + 1)) as [?| | |]; cbn [rbind]; try discriminate. destruct (vput p1 _ _) as [p2| | |] eqn:E2; cbn [rbind]; try discriminate.
      destruct (vput p2 _ _) as [p3| | |] eqn:E3; cbn [rbind]; try discriminate. intros E. apply (proj2 (IH _ _ _ _)) in E. apply vput_len in E1, E2, E3. congruence.
    + destruct (vget ixs 1) as [?| | |]; cbn [rbind]; try discriminate. do 4 (destruct (int_of _) as [?| | |]; cbn [rbind]; try discriminate).
      destruct (vget p1 _) as [?| | |]; cbn [rbind]; try discriminate. destruct (vput p1 _ _) as [p2| | |] eqn:E2; cbn [rbind]; try discriminate.
      destruct (vget p2 _) as [?| | |]; cbn [rbind]; try discriminate. destruct (vput p2 _ _) as [p3| | |] eqn:E3; cbn [rbind]; try discriminate.
      intros E. apply (proj2 (IH _ _ _ _)) in E. apply vput_len in E1, E2, E3. congruence.
Qed.
Lemma copy_quiet amp ipp i1 i2 : forall js point, quiet (kc_copy js amp ipp i1 i2 point) /\ forall p, kc_copy js amp ipp i1 i2 point = Ok p -> len p = len point.
Proof.
  induction js as [|j js IH]; intros point; cbn [kc_copy]; [split; [apply quiet_ok|intros p E; injection E as <-; reflexivity]|]. split.
  - repeat (apply quiet_bind; [first [apply quiet_vget|apply quiet_vput]|intros ? _]). apply IH.
  - intros p. destruct (vget point _) as [?| | |]; cbn [rbind]; try discriminate. destruct (vput point _ _) as [p1| | |] eqn:E1; cbn [rbind]; try discriminate.
    destruct (vget p1 _) as [?| | |]; cbn [rbind]; try discriminate. destruct (vput p1 _ _) as [p2| | |] eqn:E2; cbn [rbind]; try discriminate.
    intros E. apply (proj2 (IH _)) in E. apply vput_len in E1, E2. congruence.
Qed.
Lemma dist_dir_quiet amp p q ixs : forall js pi d, quiet (kc_dist_dir js amp p q ixs pi d).
Proof. induction js as [|j js IH]; intros pi d; cbn [kc_dist_dir]; [apply quiet_ok|]. repeat (apply quiet_bind; [apply quiet_vget|intros ? _]). apply IH. Qed.
Lemma dist_plain_quiet p q : forall js d, quiet (kc_dist_plain js p q d).
Proof. induction js as [|j js IH]; intros d; cbn [kc_dist_plain]; [apply quiet_ok|]. repeat (apply quiet_bind; [apply quiet_vget|intros ? _]). apply IH. Qed.
Lemma distances_quiet kc p ixs : quiet (kc_distances kc p ixs).
Proof.
  unfold kc_distances. apply quiet_bind; [|intros; apply quiet_ok]. apply quiet_rmapM. intros q. unfold kc_distance. apply quiet_bind; [|intros; apply quiet_ok].
  destruct (kc_useDirection kc); [apply dist_dir_quiet|apply dist_plain_quiet].
Qed.
Lemma sort_quiet srt l : quiet (kc_sort srt l).
Proof. unfold kc_sort. destruct (strict_weak _ _); quiet. Qed.
Lemma fill_quiet base : forall ks out, quiet (kc_fill ks base out).
Proof. induction ks as [|k ks IH]; intros out; cbn [kc_fill]; [apply quiet_ok|]. apply quiet_bind; [apply quiet_int|intros ? _]. apply quiet_bind; [apply quiet_vput|intros ? _]. apply IH. Qed.
Lemma activate_quiet bits L : forall is_ out, quiet (kc_activate is_ bits L out).
Proof.
  induction is_ as [|i is_ IH]; intros out; cbn [kc_activate]; [apply quiet_ok|]. apply quiet_bind; [apply quiet_vget|intros ? _]. apply quiet_bind; [apply quiet_int|intros ? _].
  apply quiet_bind; [apply quiet_vget|intros v _]. apply quiet_bind; [destruct (v =? 1); [apply quiet_ok|apply fill_quiet]|intros ? _]. apply IH.
Qed.

(** ** Direction mode with two or more dimensions is always undefined *)
Definition directed (kc : kcanvas) (dim : Z) : Prop :=
  kc_useDirection kc = true /\ kc_dim kc = dim /\ kc_amplifyDim kc = dim + 2 * (dim - 1) /\ 0 < len (kc_kernels kc) /\
  Forall (fun q => len q = 3 * kc_amplifyDim kc) (kc_kernels kc).

Lemma point_first tanh kc dim point row row' ms ss : directed kc dim ->
  quiet (kc_point tanh kc point row row' ms ss [2; 1; 0]) /\
  forall p ixs, kc_point tanh kc point row row' ms ss [2; 1; 0] = Ok (p, ixs) -> len p = len point /\ ixs = [0; 2; 2].
Proof.
  intros (Hu & _). unfold kc_point. rewrite Hu. change (switchIndexes [2; 1; 0]) with (@Ok (Z * list Z) (0, [0; 2; 2])). cbn [rbind]. split.
  - apply quiet_bind; [apply quiet_norm|intros t _]. apply quiet_bind; [apply quiet_vput|intros ? _]. apply quiet_bind; [destruct row'; [apply quiet_norm|apply quiet_ok]|intros ? _].
    apply quiet_bind; [apply direction_quiet|intros [p i] _]. do 2 (apply quiet_bind; [apply quiet_vget|intros ? _]). apply quiet_bind; [apply copy_quiet|intros ? _]. apply quiet_ok.
  - intros p ixs. destruct (kc_norm _ _ _ _ _) as [t| | |]; cbn [rbind]; try discriminate. destruct (vput point _ _) as [p1| | |] eqn:E1; cbn [rbind]; try discriminate.
    destruct (match row' with Some next => _ | None => _ end) as [?| | |]; cbn [rbind]; try discriminate.
    destruct (kc_direction _ _ _ _ _ _ _ _ _ _ _ _ _) as [[p2 i]| | |] eqn:E2; cbn [rbind]; try discriminate. change (vget [0; 2; 2] 1) with (@Ok Z 2). change (vget [0; 2; 2] 2) with (@Ok Z 2). cbn [rbind].
    destruct (kc_copy _ _ _ _ _ _) as [p3| | |] eqn:E3; cbn [rbind]; try discriminate. intros E. injection E as <- <-. split; [|reflexivity].
    apply (proj2 (direction_quiet _ _ _ _ _ _ _ _ _ _ _ _ _)) in E2. apply (proj2 (copy_quiet _ _ _ _ _ _)) in E3. apply vput_len in E1. congruence.
Qed.
(** The last row of a sequence, read at first position: the pair of the previous point is out of range. *)
Lemma point_last_ub tanh kc dim point row ms ss : 2 <= dim -> directed kc dim -> len point = 3 * kc_amplifyDim kc ->
  is_ub (kc_point tanh kc point row None ms ss [2; 1; 0]).
Proof.
  intros Hd (Hu & Hdim & Ha & _) Hl. unfold kc_point. rewrite Hu. change (switchIndexes [2; 1; 0]) with (@Ok (Z * list Z) (0, [0; 2; 2])). cbn [rbind]. rewrite Hdim.
  apply ub_bind; [apply quiet_norm|intros t _]. apply ub_bind; [apply quiet_vput|intros p1 E1]. cbn [rbind]. apply ub_bind; [apply direction_quiet|]. intros [p i] E. exfalso. revert E.
  rewrite seqZ_cons by lia. cbn [kc_direction]. do 2 (destruct (int_of _) as [?| | |] in |- *; cbn [rbind]; try discriminate).
  destruct (kc_norm _ _ _ _ _) as [t1| | |]; cbn [rbind]; try discriminate. destruct (vput p1 _ _) as [p2| | |] eqn:E2; cbn [rbind]; try discriminate.
  change (vget [0; 2; 2] 1) with (@Ok Z 2). cbn [rbind].
  unfold int_of at 1. destruct (in_int (2 * kc_amplifyDim kc)); cbn [rbind]; try discriminate.
  unfold int_of at 1. destruct (in_int (2 * kc_amplifyDim kc * 2)); cbn [rbind]; try discriminate.
  unfold int_of at 1. destruct (in_int (2 * kc_amplifyDim kc * 2 + dim)); cbn [rbind]; try discriminate.
  unfold int_of at 1. destruct (in_int (2 * kc_amplifyDim kc * 2 + dim + 1 - 1)); cbn [rbind]; try discriminate.
  rewrite vget_oob; [discriminate|]. apply vput_len in E1, E2. lia.
Qed.
(** Any row at second position: the pair of the point itself is out of range. *)
Lemma point_second_ub tanh kc dim point row row' ms ss : 2 <= dim -> directed kc dim -> len point = 3 * kc_amplifyDim kc ->
  is_ub (kc_point tanh kc point row row' ms ss [0; 2; 2]).
Proof.
  intros Hd (Hu & Hdim & Ha & _) Hl. unfold kc_point. rewrite Hu. change (switchIndexes [0; 2; 2]) with (@Ok (Z * list Z) (2, [2; 0; 0])). cbn [rbind]. rewrite Hdim.
  apply ub_bind; [apply quiet_norm|intros t _]. apply ub_bind; [apply quiet_vput|intros p1 E1]. apply ub_bind; [destruct row'; [apply quiet_norm|apply quiet_ok]|intros ab _].
  apply ub_bind; [apply direction_quiet|]. intros [p i] E. exfalso. revert E. rewrite seqZ_cons by lia. cbn [kc_direction].
  unfold int_of at 1. destruct (in_int (2 * kc_amplifyDim kc * 2)); cbn [rbind]; try discriminate.
  unfold int_of at 1. destruct (in_int (2 * kc_amplifyDim kc * 2 + dim)); cbn [rbind]; try discriminate.
  destruct (kc_norm _ _ _ _ _) as [t1| | |]; cbn [rbind]; try discriminate. destruct (vput p1 _ _) as [p2| | |] eqn:E2; cbn [rbind]; try discriminate.
  assert (Hl2 : len p2 <= 2 * kc_amplifyDim kc * 2 + dim) by (apply vput_len in E1, E2; lia).
  destruct row' as [next|].
  - destruct (kc_norm _ _ _ _ _) as [t2| | |]; cbn [rbind]; try discriminate. do 2 (destruct (vget p2 _) as [?| | |]; cbn [rbind]; try discriminate).
    rewrite vput_oob by exact Hl2. discriminate.
  - change (vget [2; 0; 0] 1) with (@Ok Z 0). cbn [rbind]. do 4 (destruct (int_of _) as [?| | |] in |- *; cbn [rbind]; try discriminate).
    destruct (vget p2 _) as [?| | |]; cbn [rbind]; try discriminate. rewrite vput_oob by exact Hl2. discriminate.
Qed.
Theorem direction_ub tanh srt kc dim row seq : 2 <= dim -> directed kc dim -> shaped dim (row :: seq) -> is_ub (kc_transform srt tanh kc (row :: seq)).
Proof.
  intros Hd HD HS. pose proof HD as (Hu & Hdim & Ha & Hk & HF). unfold kc_transform. rewrite Hdim.
  destruct (mean_ok dim (row :: seq) ltac:(lia) (shaped_wide _ _ HS)) as (ms & -> & Hm). cbn [rbind]. destruct (std_ok dim (row :: seq) ms ltac:(lia) (shaped_wide _ _ HS) Hm) as (ss & -> & _). cbn [rbind].
  destruct (vget_some (kc_kernels kc) 0) as (k0 & Ek & ->); [lia|]. cbn [rbind]. pose proof (Forall_lookup_1 _ _ _ _ HF Ek) as Hk0. cbv beta in Hk0.
  assert (Hpl : len (repeat f64_zero (length k0)) = 3 * kc_amplifyDim kc) by (unfold len in *; rewrite repeat_length; exact Hk0).
  set (point := repeat f64_zero (length k0)) in *. clearbody point. apply Forall_cons in HS as [Hr HS]. cbn [kc_loop]. rewrite Hdim, Hr, Z.eqb_refl. cbn [negb].
  destruct seq as [|row2 seq].
  - cbn [head]. apply ub_bind; [apply (point_first tanh kc dim point row None ms ss HD)|]. intros [p ixs] E. exfalso. destruct (point_last_ub tanh kc dim point row ms ss Hd HD Hpl) as [u Eu]. congruence.
  - cbn [head]. destruct (point_first tanh kc dim point row (Some row2) ms ss HD) as [Hq Hp]. apply ub_bind; [exact Hq|]. intros [p ixs] E. destruct (Hp p ixs E) as [Hl ->].
    apply ub_bind; [apply distances_quiet|intros ds _]. apply ub_bind; [apply sort_quiet|intros so _]. apply ub_bind; [apply activate_quiet|intros out _].
    cbn [kc_loop]. apply Forall_cons in HS as [Hr2 _]. rewrite Hdim, Hr2, Z.eqb_refl. cbn [negb].
    destruct (point_second_ub tanh kc dim p row2 (head seq) ms ss Hd HD ltac:(lia)) as [u ->]. exists u. reflexivity.
Qed.

(** ** Direction mode in one dimension *)
Lemma triple {A} (l : list A) : len l = 3 -> exists a b c, l = [a; b; c].
Proof. unfold len. destruct l as [|a [|b [|c [|]]]]; cbn; try lia. eauto. Qed.
Lemma triple_one {A} (l : list A) : len l = 1 -> exists a, l = [a].
Proof. unfold len. destruct l as [|a [|]]; cbn; try lia. eauto. Qed.
Definition ix_ok (ixs : list Z) : Prop := exists a b c, ixs = [a; b; c] /\ 0 <= a <= 2 /\ 0 <= b <= 2 /\ 0 <= c <= 2.
Lemma vput_in {A} (l : list A) i x : 0 <= i < len l -> vput l i x = Ok (<[Z.to_nat i := x]> l).
Proof. intros H. unfold vput. replace ((0 <=? i) && (i <? len l)) with true by lia. reflexivity. Qed.
Lemma len_insert {A} (l : list A) i x : len (<[i := x]> l) = len l.
Proof. unfold len. rewrite insert_length. reflexivity. Qed.
Lemma point_one tanh kc point row row' ms ss ixs t : kc_useDirection kc = true -> kc_dim kc = 1 -> kc_amplifyDim kc = 1 -> len point = 3 -> ix_ok ixs ->
  0 < len ms -> 0 < len ss -> kc_norm tanh ms ss row 0 = Ok t -> (forall next, row' = Some next -> 0 < len next) ->
  exists p ixs' a b c, kc_point tanh kc point row row' ms ss ixs = Ok (p, ixs') /\ len p = 3 /\ ix_ok ixs' /\ ixs' = [a; b; c] /\ vget p a = Ok t /\ vget p b = Ok t.
Proof.
  intros Hu Hd Ha Hl (a & b & c & -> & Ia & Ib & Ic) Hm Hs Ht Hn. unfold kc_point. rewrite Hu, Hd, Ha.
  change (switchIndexes [a; b; c]) with (@Ok (Z * list Z) (c, [c; a; a])). cbn [rbind].
  assert (Hnorm : forall r, 0 < len r -> exists t, kc_norm tanh ms ss r 0 = Ok t).
  { intros r H. unfold kc_norm. destruct (vget_some ms 0) as (m & _ & ->); [lia|]. cbn [rbind]. destruct (vget_some r 0) as (x & _ & ->); [lia|]. cbn [rbind]. destruct (vget_some ss 0) as (s & _ & ->); [lia|]. cbn [rbind]. eauto. }
  rewrite Ht. cbn [rbind]. rewrite !Z.mul_1_r. rewrite vput_in by lia. cbn [rbind].
  assert (Hb : exists ab, match row' with Some next => kc_norm tanh ms ss next 0 | None => Ok f64_zero end = Ok ab) by (destruct row' as [next|]; [apply Hnorm, Hn; reflexivity|eauto]).
  destruct Hb as [ab ->]. cbn [rbind]. change (seqZ 1 (1 - 1)) with (@nil Z). cbn [kc_direction rbind]. change (vget [c; a; a] 1) with (@Ok Z a). change (vget [c; a; a] 2) with (@Ok Z a). cbn [rbind].
  change (seqZ 0 1) with [0]. cbn [kc_copy]. rewrite !Z.mul_1_r, !Z.add_0_r. set (p1 := <[Z.to_nat c:=t]> point). assert (Hl1 : len p1 = 3) by (unfold p1; rewrite len_insert; exact Hl).
  assert (E1 : p1 !! Z.to_nat c = Some t) by (unfold p1; apply list_lookup_insert; unfold len in Hl; lia).
  rewrite (vget_lookup p1 c t) by (lia || exact E1). cbn [rbind]. rewrite vput_in by lia. cbn [rbind].
  set (p2 := <[Z.to_nat a:=t]> p1). assert (Hl2 : len p2 = 3) by (unfold p2; rewrite len_insert; exact Hl1).
  assert (E2a : p2 !! Z.to_nat a = Some t) by (unfold p2; apply list_lookup_insert; unfold len in Hl1; lia).
  assert (E2c : p2 !! Z.to_nat c = Some t) by (destruct (decide (Z.to_nat a = Z.to_nat c)) as [He|Hne]; [rewrite <- He; exact E2a|unfold p2; rewrite list_lookup_insert_ne by exact Hne; exact E1]).
  rewrite (vget_lookup p2 c t) by (lia || exact E2c). cbn [rbind]. rewrite vput_in by lia. cbn [rbind]. rewrite (list_insert_id p2 _ _ E2a).
  exists p2, [c; a; a], c, a, a. split; [reflexivity|]. split; [exact Hl2|]. split; [exists c, a, a; auto|]. split; [reflexivity|]. split; apply vget_lookup; (lia || assumption).
Qed.
Lemma distance_one kc p a b c xa xb q : kc_useDirection kc = true -> kc_amplifyDim kc = 1 -> vget p a = Ok xa -> vget p b = Ok xb ->
  len q = 3 -> kc_distance kc p [a; b; c] q = Ok (distance [xa; xb; xb] q).
Proof.
  intros Hu Ha Ea Eb Hq. destruct (triple q Hq) as (q0 & q1 & q2 & ->). unfold kc_distance. rewrite Hu, Ha. change (seqZ 0 (1 * 3)) with [0; 1; 2].
  cbn [kc_dist_dir]. change (vget [a; b; c] 0) with (@Ok Z a). cbn [rbind]. change (Z.rem 0 1) with 0. rewrite !Z.mul_1_r, !Z.add_0_r, Ea. cbn [rbind]. change (vget [q0; q1; q2] 0) with (@Ok f64 q0). cbn [rbind].
  change (0 =? 1 - 1) with true. cbn iota. change (0 + 1) with 1. change (vget [a; b; c] 1) with (@Ok Z b). cbn [rbind]. change (Z.rem 1 1) with 0. rewrite !Z.mul_1_r, !Z.add_0_r, Eb. cbn [rbind].
  change (vget [q0; q1; q2] 1) with (@Ok f64 q1). cbn [rbind]. change (1 =? 1 - 1) with false. cbn iota. change (vget [a; b; c] 1) with (@Ok Z b). cbn [rbind]. change (Z.rem 2 1) with 0. rewrite ?Z.mul_1_r, ?Z.add_0_r, Eb. cbn [rbind].
  change (vget [q0; q1; q2] 2) with (@Ok f64 q2). cbn [rbind]. reflexivity.
Qed.
Theorem direction_one tanh srt kc seq : sorts srt -> directed kc 1 -> 0 < kc_bitsByKernel kc -> 0 <= kc_nact kc <= len (kc_kernels kc) ->
  len (kc_kernels kc) * kc_bitsByKernel kc <= INT_MAX -> Forall (fun q => Forall finite q) (kc_kernels kc) -> shaped 1 seq ->
  exists out chosen, kc_transform srt tanh kc seq = Ok out /\
    Forall2 (fun row S => nearest (kc_kernels kc) (thrice (normalised tanh seq row)) (kc_nact kc) S) seq chosen /\
    blocks (len (kc_kernels kc)) (kc_bitsByKernel kc) (concat chosen) out.
Proof.
  intros Hsrt (Hu & Hdim & Ha & Hk & HF) Hb Hn Hmax Hfin HS. cbn in Ha. unfold kc_transform. rewrite Hdim.
  destruct (mean_ok 1 seq ltac:(lia) (shaped_wide _ _ HS)) as (ms & -> & Hm). cbn [rbind]. destruct (std_ok 1 seq ms ltac:(lia) (shaped_wide _ _ HS) Hm) as (ss & -> & Hs). cbn [rbind]. destruct Hm as [Hml Hml0]. destruct Hs as [Hsl Hsl0].
  destruct (vget_some (kc_kernels kc) 0) as (k0 & Ek & ->); [lia|]. cbn [rbind]. pose proof (Forall_lookup_1 _ _ _ _ HF Ek) as Hk0. cbv beta in Hk0.
  assert (G : forall rows point ixs A out, shaped 1 rows -> len point = 3 -> ix_ok ixs -> blocks (len (kc_kernels kc)) (kc_bitsByKernel kc) A out ->
    exists out' chosen, kc_loop srt tanh kc ms ss rows point ixs out = Ok out' /\ Forall2 (fun row S => nearest (kc_kernels kc) (thrice (normalised tanh seq row)) (kc_nact kc) S) rows chosen /\
      blocks (len (kc_kernels kc)) (kc_bitsByKernel kc) (A ++ concat chosen) out').
  { clear HS k0 Ek Hk0. induction rows as [|row rows IH]; intros point ixs A out HR Hpl Hix HB; cbn [kc_loop].
    - exists out, []. split; [reflexivity|]. split; [constructor|]. cbn. rewrite app_nil_r. exact HB.
    - apply Forall_cons in HR as [Hr HR]. rewrite Hdim, Hr. change (negb (1 =? 1)) with false. cbn iota.
      destruct (triple_one row Hr) as (x & ->). set (t := tanh (f64_div (f64_sub (mean_of (column seq 0)) x) (std_of (column seq 0)))).
      assert (Ht : kc_norm tanh ms ss [x] 0 = Ok t).
      { unfold kc_norm. rewrite (vget_lookup ms 0 _ ltac:(lia) (Hml0 0%nat ltac:(lia))). cbn [rbind]. change (vget [x] 0) with (@Ok f64 x). cbn [rbind].
        rewrite (vget_lookup ss 0 _ ltac:(lia) (Hsl0 0%nat ltac:(lia))). reflexivity. }
      destruct (point_one tanh kc point [x] (head rows) ms ss ixs t Hu Hdim Ha Hpl Hix ltac:(lia) ltac:(lia) Ht) as (p & ixs' & a & b & c & -> & Hpl' & Hix' & Eix & Eva & Evb).
      { intros next En. destruct rows as [|r rows]; [discriminate|]. injection En as <-. apply Forall_cons in HR as [-> _]. lia. }
      cbn [rbind]. set (e := [t; t; t]). assert (Hle : len e = 3) by reflexivity. assert (He : forall q, len q = 3 -> kc_distance kc p ixs' q = Ok (distance e q)) by (intros q Hq; rewrite Eix; apply distance_one; assumption).
      assert (Ed : kc_distances kc p ixs' = Ok (zip (seqZ 0 (len (kc_kernels kc))) (distance e <$> kc_kernels kc))).
      { unfold kc_distances. rewrite (rmapM_total _ (distance e)); [reflexivity|]. intros q Hq. apply He. rewrite Forall_forall in HF. rewrite (HF q Hq). lia. }
      rewrite Ed. cbn [rbind].
      destruct (sort_ok srt kc e) as [E Hsw].
      { apply Forall_forall. intros q Hq. rewrite Forall_forall in HF, Hfin. split; [rewrite (HF q Hq); lia|apply Hfin, Hq]. }
      cbv zeta in E, Hsw. rewrite E. cbn [rbind].
      destruct (chosen_nearest srt (kc_kernels kc) e (kc_nact kc) Hsrt Hsw Hn) as (Hnear & Hin & Hlen).
      set (L := srt _) in *. destruct (activate_ok (len (kc_kernels kc)) (kc_bitsByKernel kc) Hb Hmax (Z.to_nat (kc_nact kc)) 0 L A out) as (out' & Ea & HB'); [lia|lia|exact Hin|exact HB|].
      rewrite Z2Nat.id in Ea by lia. rewrite Ea. cbn [rbind].
      destruct (IH p ixs' _ out' HR Hpl' Hix' HB') as (out'' & chosen & E'' & HF2 & HB''). rewrite E''. change (drop (Z.to_nat 0) L.*1) with L.*1 in HB''.
      exists out'', (take (Z.to_nat (kc_nact kc)) L.*1 :: chosen). split; [reflexivity|]. split; [constructor; [exact Hnear|assumption]|]. cbn [concat]. rewrite app_assoc. exact HB''. }
  apply (G seq _ _ [] _ HS).
  - unfold len in *. rewrite repeat_length. lia.
  - exists 2, 1, 0. split; [reflexivity|lia].
  - split; [unfold len; rewrite repeat_length; nia|]. intros k b Hk' Hb'. rewrite repeat_lookup; [reflexivity|]. pose proof (block_in _ _ _ _ Hk' Hb'). lia.
Qed.

(** ** More activations than kernels *)
Lemma activate_over n bits L A out c : 0 < bits -> n * bits <= INT_MAX -> len L = n -> n < c -> Forall (fun a : Z * f64 => 0 <= a.1 < n) L -> blocks n bits A out ->
  kc_activate (seqZ 0 c) bits L out = UB UBIndex.
Proof.
  intros Hb Hmax Hl Hc HF HB.
  assert (G : forall (m : nat) i out, 0 <= i -> i + Z.of_nat m = n -> blocks n bits (take (Z.to_nat i) L.*1 ++ A) out -> kc_activate (seqZ i (c - i)) bits L out = UB UBIndex).
  { clear HB out. induction m as [|m IH]; intros i out Hi Hm HB.
    - rewrite seqZ_cons by lia. cbn [kc_activate]. rewrite vget_oob by lia. reflexivity.
    - rewrite seqZ_cons by lia. destruct (activate_ok n bits Hb Hmax 1 i L _ out Hi ltac:(lia) HF HB) as (out' & E & HB').
      change (Z.of_nat 1) with 1 in E. change 1 with (Z.succ 0) in E at 1. rewrite seqZ_cons in E by lia. change (seqZ (Z.succ i) (Z.pred (Z.succ 0))) with (@nil Z) in E. cbn [kc_activate] in E |- *.
      destruct (vget L i) as [d| | |] eqn:Ed; cbn [rbind] in E |- *; try discriminate. destruct (int_of _) as [base| | |]; cbn [rbind] in E |- *; try discriminate.
      destruct (vget out base) as [v| | |]; cbn [rbind] in E |- *; try discriminate. destruct (if v =? 1 then _ else _) as [o| | |]; cbn [rbind] in E |- *; try discriminate. injection E as ->.
      replace (Z.pred (c - i)) with (c - Z.succ i) by lia. apply IH; [lia|lia|].
      destruct HB' as [H1 H2]. split; [exact H1|]. intros k b Hk Hb'. rewrite H2 by assumption.
      destruct (vget_some L i) as (a & Ea & _); [lia|]. replace (Z.to_nat (Z.succ i)) with (S (Z.to_nat i)) by lia.
      rewrite (take_S_r L.*1 _ a.1) by (rewrite list_lookup_fmap, Ea; reflexivity). rewrite (drop_S L.*1 a.1 (Z.to_nat i)) by (rewrite list_lookup_fmap, Ea; reflexivity). cbn [take].
      rewrite (bool_decide_ext (k ∈ (take (Z.to_nat i) L.*1 ++ A) ++ [a.1]) (k ∈ (take (Z.to_nat i) L.*1 ++ [a.1]) ++ A)); [reflexivity|]. rewrite !elem_of_app. tauto. }
  specialize (G (Z.to_nat n) 0 out). rewrite Z.sub_0_r in G. apply G; [lia| |exact HB]. unfold len in Hl. lia.
Qed.
Theorem transform_over tanh srt kc row seq : sorts srt -> plain kc -> 0 < kc_dim kc -> 0 < kc_bitsByKernel kc -> len (kc_kernels kc) < kc_nact kc -> 0 < len (kc_kernels kc) ->
  len (kc_kernels kc) * kc_bitsByKernel kc <= INT_MAX -> Forall (fun q => len q = kc_dim kc /\ Forall finite q) (kc_kernels kc) ->
  shaped (kc_dim kc) (row :: seq) -> kc_transform srt tanh kc (row :: seq) = UB UBIndex.
Proof.
  intros HSrt Hp Hd Hb Hn Hk Hmax HF HR. unfold kc_transform.
  destruct (mean_ok (kc_dim kc) (row :: seq) ltac:(lia) (shaped_wide _ _ HR)) as (means & -> & Hm). cbn [rbind]. destruct (std_ok (kc_dim kc) (row :: seq) means ltac:(lia) (shaped_wide _ _ HR) Hm) as (stds & -> & Hs). cbn [rbind].
  destruct (vget_some (kc_kernels kc) 0) as (k0 & Ek & ->); [lia|]. cbn [rbind]. pose proof (Forall_lookup_1 _ _ _ _ HF Ek) as [Hk0 _].
  cbn [kc_loop]. apply Forall_cons in HR as [Hr HR]. rewrite Hr, Z.eqb_refl. cbn [negb].
  rewrite (point_ok tanh kc _ row (head seq) (row :: seq) means stds [2; 1; 0]); [|lia|exact Hp|unfold len in *; rewrite repeat_length; exact Hk0|exact Hr|exact Hm|exact Hs]. cbn [rbind].
  set (p := normalised tanh (row :: seq) row). assert (Hpl' : len p = kc_dim kc) by (unfold p, len in *; rewrite normalised_len; exact Hr).
  rewrite distances_ok; [|exact Hp|exact Hpl'|eapply Forall_impl; [exact HF|intros q [H _]; exact H]]. cbn [rbind].
  destruct (sort_ok srt kc p) as [E Hsw]; [eapply Forall_impl; [exact HF|]; intros q [H1 H2]; split; [lia|exact H2]|]. cbv zeta in E, Hsw. rewrite E. cbn [rbind].
  destruct (chosen_nearest srt (kc_kernels kc) p 0 HSrt Hsw ltac:(lia)) as (_ & Hin & Hlen).
  rewrite (activate_over (len (kc_kernels kc)) (kc_bitsByKernel kc) _ []); [reflexivity|exact Hb|exact Hmax|exact Hlen|exact Hn|exact Hin|].
  split; [unfold len; rewrite repeat_length; nia|]. intros k b Hk' Hb'. rewrite repeat_lookup; [reflexivity|]. pose proof (block_in _ _ _ _ Hk' Hb'). lia.
Qed.

(** ** A row that is too short *)
Lemma over_quiet dim row f acc : (forall j a x, quiet (f j a x)) -> quiet (kc_over dim row f acc).
Proof. intros H. unfold kc_over. apply quiet_rmapM. intros j. do 2 (apply quiet_bind; [apply quiet_vget|intros ? _]). apply H. Qed.
Lemma over_wide dim row f acc out : 0 < dim -> kc_over dim row f acc = Ok out -> dim <= len row.
Proof.
  intros Hd E. destruct (Z_lt_le_dec (len row) dim) as [Hl|]; [|assumption]. exfalso. unfold kc_over in E. apply DiscCtorProofs.rmapM_ok in E.
  assert (Hin : (len row) ∈ seqZ 0 dim) by (apply elem_of_seqZ; unfold len in *; lia). apply elem_of_list_lookup in Hin as [i Hi].
  destruct (Forall2_lookup_l _ _ _ _ _ E Hi) as (y & _ & Hy). destruct (vget acc (len row)); cbn [rbind] in Hy; try discriminate. rewrite vget_oob in Hy by lia. discriminate.
Qed.
Lemma fold_quiet dim f : (forall j a x, quiet (f j a x)) -> 0 < dim -> forall seq acc, quiet (kc_fold dim f acc seq) /\ forall out, kc_fold dim f acc seq = Ok out -> wide dim seq.
Proof.
  intros Hf Hd. induction seq as [|row seq IH]; intros acc; cbn [kc_fold]; [split; [apply quiet_ok|intros; constructor]|]. split.
  - apply quiet_bind; [apply over_quiet, Hf|]. intros a _. apply IH.
  - intros out. destruct (kc_over dim row f acc) as [a| | |] eqn:E; cbn [rbind]; try discriminate. intros E'. constructor; [apply (over_wide _ _ _ _ _ Hd E)|apply (proj2 (IH a) _ E')].
Qed.
Theorem transform_short tanh srt kc seq : 0 < kc_dim kc -> ~ wide (kc_dim kc) seq -> is_ub (kc_transform srt tanh kc seq).
Proof.
  intros Hd HN. unfold kc_transform, kc_mean. destruct (fold_quiet (kc_dim kc) (fun _ a x => Ok (f64_add a x)) (fun _ _ _ => quiet_ok _) Hd seq (repeat f64_zero (Z.to_nat (kc_dim kc)))) as [[[out E]|[u E]] HW].
  - exfalso. apply HN, (HW _ E).
  - rewrite E. exists u. reflexivity.
Qed.
