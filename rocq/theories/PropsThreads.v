(** Property theorems C168: threads working on different labels of one model, in any schedule. *)
From Verif Require Import Prelude Bytes Utils Float32 BinInput Bleaching Ram Disc DataSet Wisard Cluster ClusWisard SpecDisc SpecBin SpecBleach SpecWisard SpecClus SpecValues.
From Verif Require Import UtilsProofs CtorFacts WisardFacts ClusIso PropsWisard PropsCluster PropsClus PropsOnly.

(** A schedule: the calls made on one object, each with the number of the thread that makes it; calls
    are not interrupted (the bindings hold the interpreter lock). *)
Notation schedule C := (list (nat * C)) (only parsing).
Definition of_thread {C : Type} (t : nat) (z : list (nat * C)) : list C := (filter (fun e => e.1 = t) z).*2.
(** The outcomes of the calls of a schedule (exceptions are caught, each thread goes on), and the object
    at the end. *)
Definition played {S C : Type} (run : S -> C -> eff S unit) (s : S) (z : schedule C) : list (res unit) * S := outcomes (fun s e => run s e.2) s z.
(** What the calls of thread t returned or threw. *)
Definition seen_by {C : Type} (t : nat) (z : schedule C) (os : list (res unit)) : list (res unit) := of_thread t (zip z.*1 os).
(** No call had undefined behaviour or did not end. *)
Definition all_defined (os : list (res unit)) : Prop := Forall (fun o => match o with Ok _ | Throw _ => True | _ => False end) os.
(** Different threads use different labels. *)
Definition labels_apart {C : Type} (labels : C -> list str) (z : schedule C) : Prop :=
  forall t c t' c' l, (t, c) ∈ z -> (t', c') ∈ z -> t <> t' -> l ∈ labels c -> l ∉ labels c'.

Section scheduling.
Context {S C : Type} (run : S -> C -> eff S unit) (apart : C -> C -> Prop).
Context (Hcomm : forall s c c' o o' s1 s2, apart c c' -> run s c = (o, s1) -> run s1 c' = (o', s2) -> exists s1', run s c' = (o', s1') /\ run s1' c = (o, s2)).

Lemma played_cons s t c z : played run s ((t, c) :: z) =
  let '(o, s') := run s c in match o with Ok _ | Throw _ => let '(os, f) := played run s' z in (o :: os, f) | _ => ([o], s') end.
Proof. reflexivity. Qed.
Lemma played_cons_ok s t c z : all_defined (fst (played run s ((t, c) :: z))) ->
  exists o s' os f, run s c = (o, s') /\ all_defined [o] /\ played run s' z = (os, f) /\ all_defined os /\ played run s ((t, c) :: z) = (o :: os, f).
Proof.
  rewrite played_cons. destruct (run s c) as [o s'] eqn:E. destruct (played run s' z) as [os f] eqn:Ez.
  assert (Hd : forall o : res unit, all_defined (o :: os) -> all_defined [o] /\ all_defined os) by (intros o' H; apply Forall_cons in H as [H1 H2]; split; [apply Forall_singleton; exact H1|exact H2]).
  destruct o as [v|e|u|]; cbn [fst]; intros H.
  - exists (Ok v), s', os, f. destruct (Hd _ H). auto.
  - exists (Throw e), s', os, f. destruct (Hd _ H). auto.
  - apply Forall_cons in H as [[] _].
  - apply Forall_cons in H as [[] _].
Qed.
Lemma played_ok s t c z o s' os f : run s c = (o, s') -> all_defined [o] -> played run s' z = (os, f) -> played run s ((t, c) :: z) = (o :: os, f).
Proof. intros E H Ez. rewrite played_cons, E. apply Forall_cons in H as [H _]. destruct o; try contradiction; rewrite Ez; reflexivity. Qed.

Lemma played_length s z : all_defined (fst (played run s z)) -> length (fst (played run s z)) = length z.
Proof.
  revert s. induction z as [|[t c] z IH]; intros s H; [reflexivity|]. destruct (played_cons_ok _ _ _ _ H) as (o & s' & os & f & E & Ho & Ez & Hos & ->).
  cbn [fst length]. f_equal. specialize (IH s'). rewrite Ez in IH. apply IH, Hos.
Qed.

(** A call moves past calls it is apart from. *)
Lemma played_move t c : forall pre post s o os f, Forall (fun e => apart c e.2) pre -> played run s ((t, c) :: pre ++ post) = (o :: os, f) -> all_defined (o :: os) ->
  played run s (pre ++ (t, c) :: post) = (take (length pre) os ++ o :: drop (length pre) os, f).
Proof.
  induction pre as [|[t' c'] pre IH]; intros post s o os f Hap E Hd; [exact E|]. apply Forall_cons in Hap as [Hc' Hap]. cbn [snd] in Hc'.
  cbn [app] in E. destruct (played_cons_ok s t c ((t', c') :: pre ++ post)) as (o1 & s1 & os1 & f1 & E1 & D1 & E2 & D2 & E3); [rewrite E; exact Hd|]. rewrite E3 in E. injection E as -> -> ->.
  destruct (played_cons_ok s1 t' c' (pre ++ post)) as (o2 & s2 & os2 & f2 & E4 & D4 & E5 & D5 & E6); [rewrite E2; exact D2|]. rewrite E6 in E2. injection E2 as <- ->.
  destruct (Hcomm s c c' o o2 s1 s2 Hc' E1 E4) as (s1' & R1 & R2).
  cbn [app length take drop]. apply (played_ok s t' c' _ o2 s1'); [exact R1|exact D4|]. apply IH; [exact Hap| |apply Forall_cons; split; [apply Forall_cons in D1 as [D1 _]; exact D1|exact D5]].
  apply (played_ok s1' t c _ o s2); [exact R2|exact D1|exact E5].
Qed.

Lemma of_thread_cons {D : Type} t u (c : D) z : of_thread t ((u, c) :: z) = if decide (u = t) then c :: of_thread t z else of_thread t z.
Proof. unfold of_thread. rewrite filter_cons. cbn [fst]. destruct (decide (u = t)); reflexivity. Qed.
Lemma of_thread_app {D : Type} t (z z' : list (nat * D)) : of_thread t (z ++ z') = of_thread t z ++ of_thread t z'.
Proof. unfold of_thread. rewrite filter_app, fmap_app. reflexivity. Qed.
Lemma first_call t (c : C) cs : forall z, of_thread t z = c :: cs -> exists pre post, z = pre ++ (t, c) :: post /\ of_thread t pre = [] /\ Forall (fun e => e.1 <> t) pre.
Proof.
  induction z as [|[u d] z IH]; [discriminate|]. rewrite of_thread_cons. destruct (decide (u = t)) as [->|Hne].
  - intros [= -> _]. exists [], z. repeat split. constructor.
  - intros H. destruct (IH H) as (pre & post & -> & Hp & Hf). exists ((u, d) :: pre), post. split; [reflexivity|]. split; [rewrite of_thread_cons, decide_False by exact Hne; exact Hp|].
    apply Forall_cons. split; assumption.
Qed.
Lemma no_call t : forall z : list (nat * C), of_thread t z = [] -> Forall (fun e => e.1 <> t) z.
Proof. induction z as [|[u d] z IH]; [constructor|]. rewrite of_thread_cons. destruct (decide (u = t)); [discriminate|]. intros H. apply Forall_cons. split; [assumption|apply IH, H]. Qed.
Lemma of_thread_none {D : Type} t (z : list (nat * D)) : Forall (fun e => e.1 <> t) z -> of_thread t z = [].
Proof. induction 1 as [|[u d] z H _ IH]; [reflexivity|]. rewrite of_thread_cons, decide_False by exact H. exact IH. Qed.
Lemma seen_app t z1 z2 os1 os2 : length z1 = length os1 -> @seen_by C t (z1 ++ z2) (os1 ++ os2) = seen_by t z1 os1 ++ seen_by t z2 os2.
Proof. intros H. unfold seen_by. rewrite fmap_app, zip_with_app by (rewrite fmap_length; exact H). apply of_thread_app. Qed.
Lemma seen_cons t u c z o os : @seen_by C t ((u, c) :: z) (o :: os) = if decide (u = t) then o :: seen_by t z os else seen_by t z os.
Proof. apply of_thread_cons. Qed.
Lemma seen_none t z os : Forall (fun e => e.1 <> t) z -> @seen_by C t z os = [].
Proof.
  intros H. apply of_thread_none. revert os. induction H as [|[u d] z H _ IH]; intros os; [constructor|]. destruct os as [|o os]; [constructor|]. cbn. apply Forall_cons. split; [exact H|apply IH].
Qed.

Lemma reschedule : forall z z' s, (forall t, of_thread t z = of_thread t z') -> (forall t c t' c', (t, c) ∈ z -> (t', c') ∈ z -> t <> t' -> apart c c') ->
  all_defined (fst (played run s z)) ->
  snd (played run s z') = snd (played run s z) /\ all_defined (fst (played run s z')) /\
  forall t, seen_by t z' (fst (played run s z')) = seen_by t z (fst (played run s z)).
Proof.
  induction z as [|[t c] z IH]; intros z' s Heq Hap Hd.
  - assert (z' = []) as ->. { destruct z' as [|[u d] z']; [reflexivity|]. specialize (Heq u). rewrite of_thread_cons, decide_True in Heq by reflexivity. discriminate. }
    repeat split. exact Hd.
  - pose proof (Heq t) as Ht. rewrite of_thread_cons, decide_True in Ht by reflexivity. destruct (first_call t c (of_thread t z) z' (eq_sym Ht)) as (pre & post & -> & Hpre & Hf).
    destruct (played_cons_ok s t c z Hd) as (o & s1 & os & f & E1 & D1 & E2 & D2 & E3).
    assert (Hsub : forall e, e ∈ pre ++ post -> e ∈ z).
    { intros [u d] Hin. assert (Hin' : d ∈ of_thread u (pre ++ post)) by (unfold of_thread; apply elem_of_list_fmap; exists (u, d); split; [reflexivity|]; apply elem_of_list_filter; auto).
      assert (of_thread u (pre ++ post) = of_thread u z) as Hu.
      { specialize (Heq u). rewrite of_thread_app, !of_thread_cons in *. destruct (decide (t = u)) as [<- |]; [|congruence]. rewrite Hpre in *. cbn [app] in *. congruence. }
      rewrite Hu in Hin'. unfold of_thread in Hin'. apply elem_of_list_fmap in Hin' as ([u' d'] & E & Hin'). apply elem_of_list_filter in Hin' as [E' Hin']. cbn in *. subst. exact Hin'. }
    destruct (IH (pre ++ post) s1) as (Hs & Hdef & Hseen).
    { intros u. specialize (Heq u). rewrite of_thread_app, !of_thread_cons in *. destruct (decide (t = u)) as [<- |]; [|congruence]. rewrite Hpre in *. cbn [app] in *. congruence. }
    { intros u d u' d' H1 H2. apply (Hap u d u' d'); right; assumption. }
    { rewrite E2. exact D2. }
    rewrite E2 in Hs, Hseen. cbn [fst snd] in Hs, Hseen. destruct (played run s1 (pre ++ post)) as [os' f'] eqn:E4. cbn [fst snd] in Hs, Hdef, Hseen. subst f'.
    assert (E5 : played run s (pre ++ (t, c) :: post) = (take (length pre) os' ++ o :: drop (length pre) os', f)).
    { apply played_move; [|apply (played_ok s t c _ o s1); assumption|apply Forall_cons; split; [apply Forall_cons in D1 as [D1 _]; exact D1|exact Hdef]].
      apply Forall_forall. intros [u d] Hin. cbn [snd]. rewrite Forall_forall in Hf. specialize (Hf _ Hin). cbn [fst] in Hf. apply (Hap t c u d); [left|right; apply Hsub, elem_of_app; auto|congruence]. }
    assert (Hlen : length os' = length (pre ++ post)) by (pose proof (played_length s1 (pre ++ post)) as K; rewrite E4 in K; apply K, Hdef). rewrite app_length in Hlen.
    rewrite E3, E5. cbn [fst snd]. split; [reflexivity|]. split.
    + apply Forall_app. rewrite <- (take_drop (length pre) os') in Hdef. apply Forall_app in Hdef as [K1 K2]. split; [exact K1|]. apply Forall_cons. split; [apply Forall_cons in D1 as [D1 _]; exact D1|exact K2].
    + intros u. rewrite seen_app by (rewrite take_length; lia). rewrite !seen_cons. specialize (Hseen u).
      rewrite <- (take_drop (length pre) os') in Hseen. rewrite seen_app in Hseen by (rewrite take_length; lia).
      destruct (decide (t = u)) as [<- |]; [|exact Hseen]. rewrite (seen_none t pre) in * by exact Hf. cbn [app] in *. f_equal. exact Hseen.
Qed.
End scheduling.

(** Wisard: what a call does to its labels depends on the options and these labels only. *)
Notation opts w := (with_discriminators w ∅).
Definition alike (L : list str) (w v : wisard) : Prop := opts w = opts v /\ forall l, l ∈ L -> w_discriminators w !! l = w_discriminators v !! l.
Definition ealike {A} (L : list str) (r r' : eff wisard A) : Prop := fst r = fst r' /\ alike L (snd r) (snd r').
Lemma ealike_bind {A B} L (r r' : eff wisard A) (g g' : A -> wisard -> eff wisard B) :
  ealike L r r' -> (forall a w v, alike L w v -> ealike L (g a w) (g' a v)) -> ealike L (ebind r g) (ebind r' g').
Proof. destruct r as [o w], r' as [o' v]. intros [E H] Hg. cbn in E, H. subst o'. destruct o; cbn [ebind]; [apply Hg, H|split; [reflexivity|exact H]..]. Qed.
Lemma alike_insert L w v l d : alike L w v -> alike L (with_discriminators w (<[l := d]> (w_discriminators w))) (with_discriminators v (<[l := d]> (w_discriminators v))).
Proof.
  intros [Ho H]. split; [exact Ho|]. intros k Hk. cbn [with_discriminators w_discriminators]. destruct (decide (k = l)) as [-> |Hne]; [rewrite !lookup_insert; reflexivity|].
  rewrite !lookup_insert_ne by congruence. apply H, Hk.
Qed.
Lemma at_label_alike f L w v l : l ∈ L -> alike L w v -> ealike L (at_label f w l) (at_label f v l).
Proof.
  intros Hl H. unfold at_label. destruct H as [Ho H]. rewrite <- (H l Hl). destruct (w_discriminators w !! l) as [d|]; [|split; [reflexivity|split; assumption]].
  destruct (f d) as [o d']. split; [reflexivity|]. cbn [snd]. apply alike_insert. split; assumption.
Qed.
Lemma make_alike lhs dr L w v l n : alike L w v -> ealike L (makeDiscriminator lhs dr w l n) (makeDiscriminator lhs dr v l n).
Proof.
  intros H. unfold makeDiscriminator. assert (construct_discriminator dr w l n = construct_discriminator dr v l n) as <-.
  { change (construct_discriminator dr (opts w) l n = construct_discriminator dr (opts v) l n). destruct H as [-> _]. reflexivity. }
  destruct (construct_discriminator dr w l n); (split; [reflexivity|]); cbn [snd]; [apply alike_insert, H|destruct lhs; [apply alike_insert, H|exact H]|exact H..].
Qed.
Lemma train1_alike lhs env L w v x l : l ∈ L -> alike L w v -> ealike L (wisard_train1 lhs env w x l) (wisard_train1 lhs env v x l).
Proof.
  intros Hl H. unfold wisard_train1. pose proof H as [_ Hd]. rewrite <- (Hd l Hl). destruct (w_discriminators w !! l); [apply at_label_alike; assumption|].
  apply ealike_bind; [apply make_alike, H|]. intros _ w' v' H'. apply at_label_alike; assumption.
Qed.
Lemma train_loop_alike lhs env L : forall xs ls w v, ls ⊆ L -> alike L w v -> ealike L (wisard_train_loop lhs env w xs ls) (wisard_train_loop lhs env v xs ls).
Proof.
  induction xs as [|x xs IH]; intros [|l ls] w v Hs H; try (split; [reflexivity|exact H]). cbn [wisard_train_loop].
  apply ealike_bind; [apply train1_alike; [apply Hs; left|exact H]|]. intros _ w' v' H'. apply IH; [|exact H']. intros k Hk. apply Hs. right. exact Hk.
Qed.
Lemma leave1_alike L w v x l : l ∈ L -> alike L w v -> ealike L (leaveOneOut w x l) (leaveOneOut v x l).
Proof.
  intros Hl H. unfold leaveOneOut. pose proof H as [_ Hd]. rewrite <- (Hd l Hl). destruct (w_discriminators w !! l); [apply at_label_alike; assumption|split; [reflexivity|exact H]].
Qed.
Lemma leave_loop_alike L : forall xs ls w v, ls ⊆ L -> alike L w v -> ealike L (leaveMoreOut_loop w xs ls) (leaveMoreOut_loop v xs ls).
Proof.
  induction xs as [|x xs IH]; intros [|l ls] w v Hs H; try (split; [reflexivity|exact H]). cbn [leaveMoreOut_loop].
  apply ealike_bind; [apply leave1_alike; [apply Hs; left|exact H]|]. intros _ w' v' H'. apply IH; [|exact H']. intros k Hk. apply Hs. right. exact Hk.
Qed.
Lemma opts_fields w v : opts w = opts v -> w_addressSize w = w_addressSize v /\ w_completeAddressing w = w_completeAddressing v /\ w_confidence w = w_confidence v.
Proof. destruct w, v. unfold with_discriminators. cbn. intros [= -> -> -> -> -> -> -> -> -> -> -> -> ->]. auto. Qed.
Lemma call_alike lhs w v c : alike (call_labels c) w v -> ealike (call_labels c) (wcall_run lhs w c) (wcall_run lhs v c).
Proof.
  intros H. destruct (opts_fields w v (proj1 H)) as (E1 & E2 & E3). destruct c as [env xs ls|x l|xs ls]; cbn [wcall_run call_labels] in *.
  - unfold wisard_train. rewrite <- E1, <- E2, <- E3. destruct xs as [|x0 xs]; [split; [reflexivity|exact H]|]. destruct (calculateNumberOfRams _ _ _); try (split; [reflexivity|exact H]).
    destruct (checkConfidence _ _); try (split; [reflexivity|exact H]). destruct (checkInputSizes _ _); try (split; [reflexivity|exact H]). apply train_loop_alike; [reflexivity|exact H].
  - apply leave1_alike; [left|exact H].
  - unfold leaveMoreOut. destruct (checkInputSizes _ _); try (split; [reflexivity|exact H]). apply leave_loop_alike; [reflexivity|exact H].
Qed.
Lemma alike_eq w v : opts w = opts v -> w_discriminators w = w_discriminators v -> w = v.
Proof. destruct w, v. unfold with_discriminators. cbn. intros [= -> -> -> -> -> -> -> -> -> -> -> -> ->] ->. reflexivity. Qed.
Definition disjoint_labels (c c' : wcall) : Prop := forall l, l ∈ call_labels c -> l ∉ call_labels c'.
Lemma calls_commute lhs w c c' o o' w1 w2 : disjoint_labels c c' -> wcall_run lhs w c = (o, w1) -> wcall_run lhs w1 c' = (o', w2) ->
  exists w1', wcall_run lhs w c' = (o', w1') /\ wcall_run lhs w1' c = (o, w2).
Proof.
  intros Hdis E1 E2. destruct (wcall_run lhs w c') as [o2 w1'] eqn:E3. destruct (wcall_run lhs w1' c) as [o1 w2'] eqn:E4.
  pose proof (call_opts lhs w c) as P1. pose proof (call_opts lhs w1 c') as P2. pose proof (call_opts lhs w c') as P3. pose proof (call_opts lhs w1' c) as P4.
  pose proof (call_other lhs w c) as O1. pose proof (call_other lhs w1 c') as O2. pose proof (call_other lhs w c') as O3. pose proof (call_other lhs w1' c) as O4.
  rewrite E1 in P1, O1. rewrite E2 in P2, O2. rewrite E3 in P3, O3. rewrite E4 in P4, O4. cbn [snd] in *.
  assert (A1 : alike (call_labels c') w w1). { split; [congruence|]. intros l Hl. symmetry. apply O1. intros K. apply (Hdis l K Hl). }
  assert (A2 : alike (call_labels c) w w1'). { split; [congruence|]. intros l Hl. symmetry. apply O3. apply Hdis, Hl. }
  destruct (call_alike lhs _ _ c' A1) as [K1 [_ K2]]. destruct (call_alike lhs _ _ c A2) as [K3 [_ K4]]. rewrite E1 in K3, K4. rewrite E2 in K1, K2. rewrite E3 in K1, K2. rewrite E4 in K3, K4. cbn [fst snd] in *. subst o2 o1.
  exists w1'. split; [reflexivity|]. assert (w2' = w2) as ->; [|exact E4]. apply alike_eq; [congruence|]. apply map_eq. intros l.
  destruct (decide (l ∈ call_labels c)) as [Hl|Hl].
  - rewrite <- (K4 l Hl). rewrite (O2 l (Hdis l Hl)). reflexivity.
  - rewrite (O4 l Hl). destruct (decide (l ∈ call_labels c')) as [Hl'|Hl']; [apply K2, Hl'|]. rewrite (O3 l Hl'), (O2 l Hl'), (O1 l Hl). reflexivity.
Qed.

(** C168 for Wisard: threads that use different labels of one Wisard, however their train, leaveOneOut
    and leaveMoreOut calls are scheduled, some of which may throw: every thread sees the same outcomes and
    the Wisard is the same in the end. *)
Theorem C168_wisard : forall lhs_first w (z z' : schedule wcall),
  (forall t, of_thread t z = of_thread t z') -> labels_apart call_labels z -> all_defined (fst (played (wcall_run lhs_first) w z)) ->
  snd (played (wcall_run lhs_first) w z') = snd (played (wcall_run lhs_first) w z) /\
  all_defined (fst (played (wcall_run lhs_first) w z')) /\
  forall t, seen_by t z' (fst (played (wcall_run lhs_first) w z')) = seen_by t z (fst (played (wcall_run lhs_first) w z)).
Proof.
  intros lhs w z z' Heq Hap Hd. apply (reschedule (wcall_run lhs) disjoint_labels); [intros *; apply calls_commute|exact Heq| |exact Hd].
  intros t c t' c' Hc Hc' Hne l Hl. apply (Hap t c t' c' l Hc Hc' Hne Hl).
Qed.
Print Assumptions C168_wisard.
(** Two threads, one of them with a batch that throws: three schedules. *)
Definition busy : schedule wcall := [(0%nat, CTrain env0 [w1] [hot]); (0%nat, CTrain env0 [w3; w1] [hot]); (0%nat, CLeaveOne w1 hot); (1%nat, CTrain env0 [w2] [cold]); (1%nat, CTrain env0 [w3; w2] [lit "mild"; cold])].
Definition busy' : schedule wcall := [(1%nat, CTrain env0 [w2] [cold]); (0%nat, CTrain env0 [w1] [hot]); (0%nat, CTrain env0 [w3; w1] [hot]); (1%nat, CTrain env0 [w3; w2] [lit "mild"; cold]); (0%nat, CLeaveOne w1 hot)].
Lemma two_threads {C : Type} (z z' : schedule C) : Forall (fun e => e.1 = 0%nat \/ e.1 = 1%nat) z -> Forall (fun e => e.1 = 0%nat \/ e.1 = 1%nat) z' ->
  of_thread 0 z = of_thread 0 z' -> of_thread 1 z = of_thread 1 z' -> forall t, of_thread t z = of_thread t z'.
Proof.
  intros H H' E0 E1 t. destruct (decide (t = 0%nat)) as [-> |H0]; [exact E0|]. destruct (decide (t = 1%nat)) as [-> |H1]; [exact E1|].
  rewrite !of_thread_none; [reflexivity| |]; eapply Forall_impl; try eassumption; cbn beta; intros e [-> | ->]; congruence.
Qed.
Example C168_witness : (forall t, of_thread t busy = of_thread t busy') /\ labels_apart call_labels busy /\
  fst (played (wcall_run true) cfg busy) = [Ok tt; Throw sizes_exn; Ok tt; Ok tt; Ok tt] /\
  fst (played (wcall_run true) cfg busy') = [Ok tt; Ok tt; Throw sizes_exn; Ok tt; Ok tt] /\
  seen_by 0 busy (fst (played (wcall_run true) cfg busy)) = [Ok tt; Throw sizes_exn; Ok tt] /\
  wisard_classify (snd (played (wcall_run true) cfg busy')) [w1; w2; w3] = Ok [lit "mild"; cold; lit "mild"].
Proof.
  split; [apply two_threads; [repeat (apply Forall_cons; split; [auto|]); apply Forall_nil; exact I..|reflexivity|reflexivity]|]. split.
  - intros t c t' c' l Hc Hc' Hne Hl Hl'. unfold busy in *. rewrite !elem_of_cons, !elem_of_nil in Hc, Hc'.
    destruct_or! Hc; destruct_or! Hc'; try contradiction; injection Hc as -> ->; injection Hc' as -> ->; try congruence; apply elem_of_list_In in Hl, Hl'; cbn in Hl, Hl'; destruct_or? Hl; destruct_or? Hl'; try contradiction; subst; discriminate.
  - vm_compute. repeat split.
Qed.
Print Assumptions C168_witness.

(** Threads that train the same labels: schedules are permutations of the calls. *)
Lemma schedule_perm {C : Type} : forall z z' : schedule C, (forall t, of_thread t z = of_thread t z') -> z ≡ₚ z'.
Proof.
  induction z as [|[t c] z IH]; intros z' Heq.
  - destruct z' as [|[u d] z']; [reflexivity|]. specialize (Heq u). rewrite of_thread_cons, decide_True in Heq by reflexivity. discriminate.
  - pose proof (Heq t) as Ht. rewrite of_thread_cons, decide_True in Ht by reflexivity. destruct (first_call t c (of_thread t z) z' (eq_sym Ht)) as (pre & post & -> & Hpre & Hf).
    rewrite <- Permutation_middle. apply Permutation_skip, IH. intros u. specialize (Heq u). rewrite of_thread_app, !of_thread_cons in *. destruct (decide (t = u)) as [<- |]; [|congruence].
    rewrite Hpre in *. cbn [app] in *. congruence.
Qed.
Lemma examples_cons c cs : all_examples (c :: cs) = examples c ++ all_examples cs.
Proof. reflexivity. Qed.
Lemma examples_perm (cs cs' : list wcall) : cs ≡ₚ cs' -> all_examples cs ≡ₚ all_examples cs'.
Proof.
  induction 1 as [|c l l' _ IH|c c' l|l1 l2 l3 _ IH1 _ IH2]; [reflexivity| | |etransitivity; eassumption].
  - rewrite !examples_cons. rewrite IH. reflexivity.
  - rewrite !examples_cons, !app_assoc, (Permutation_app_comm (examples c')). reflexivity.
Qed.
(** C168 for threads that train the same labels: with fixed wiring and proper training calls, from any
    state reached by proper calls, every schedule succeeds and gives the same Wisard. *)
Theorem C168_same_labels : forall lhs_first w0 n cs0 w (z z' : schedule wcall),
  w_discriminators w0 = ∅ -> configured w0 n -> Forall (proper_call w0 n) cs0 -> wrun lhs_first w0 cs0 = (Ok tt, w) ->
  Forall (proper_call w0 n) z.*2 -> training_only z.*2 -> len (all_examples cs0) + len (all_examples z.*2) <= INT_MAX ->
  (forall l, is_Some (w_discriminators w !! l) \/ wiring_fixed w0 l) ->
  (forall t, of_thread t z = of_thread t z') ->
  exists w', wrun lhs_first w z.*2 = (Ok tt, w') /\ wrun lhs_first w z'.*2 = (Ok tt, w').
Proof.
  intros lhs w0 n cs0 w z z' H0 Hc Hp0 E Hp Ht Hl Hw Heq. pose proof (schedule_perm z z' Heq) as Hperm.
  assert (Hp2 : z.*2 ≡ₚ z'.*2) by (rewrite Hperm; reflexivity).
  apply (C48_batches_irrelevant lhs lhs w0 n cs0 z.*2 z'.*2 w H0 Hc Hp0 Hp); [rewrite <- Hp2; exact Hp|exact Ht|unfold training_only in *; rewrite <- Hp2; exact Ht| |exact Hl|exact E|exact Hw].
  apply examples_perm, Hp2.
Qed.
Print Assumptions C168_same_labels.

(** ClusWisard: the same for calls of train(images, labels). *)
Definition kalike (L : list str) (k h : cluswisard) : Prop := with_clusters k ∅ = with_clusters h ∅ /\ forall l, l ∈ L -> k_clusters k !! l = k_clusters h !! l.
Definition ekalike {A} (L : list str) (r r' : eff cluswisard A) : Prop := fst r = fst r' /\ kalike L (snd r) (snd r').
Lemma ekalike_bind {A B} L (r r' : eff cluswisard A) (g g' : A -> cluswisard -> eff cluswisard B) :
  ekalike L r r' -> (forall a w v, kalike L w v -> ekalike L (g a w) (g' a v)) -> ekalike L (ebind r g) (ebind r' g').
Proof. destruct r as [o w], r' as [o' v]. intros [E H] Hg. cbn in E, H. subst o'. destruct o; cbn [ebind]; [apply Hg, H|split; [reflexivity|exact H]..]. Qed.
Lemma kalike_insert L k h l c : kalike L k h -> kalike L (with_clusters k (<[l := c]> (k_clusters k))) (with_clusters h (<[l := c]> (k_clusters h))).
Proof.
  intros [Ho H]. split; [exact Ho|]. intros m Hm. cbn [with_clusters k_clusters]. destruct (decide (m = l)) as [-> |Hne]; [rewrite !lookup_insert; reflexivity|].
  rewrite !lookup_insert_ne by congruence. apply H, Hm.
Qed.
Lemma at_cluster_alike f L k h l : l ∈ L -> kalike L k h -> ekalike L (at_cluster f k l) (at_cluster f h l).
Proof. intros Hl [Ho H]. unfold at_cluster. rewrite <- (H l Hl). destruct (f _) as [o c]. split; [reflexivity|]. cbn [snd]. apply kalike_insert. split; assumption. Qed.
Lemma ktrain1_alike lhs dr L k h x l : l ∈ L -> kalike L k h -> ekalike L (clus_train1 lhs dr k x l) (clus_train1 lhs dr h x l).
Proof.
  intros Hl H. unfold clus_train1. pose proof H as [Ho Hd]. rewrite <- (Hd l Hl). apply at_cluster_alike; [exact Hl|]. destruct (k_clusters k !! l); [exact H|].
  unfold makeClusters. assert (new_cluster k (s32 (im_size x)) (k_base k) = new_cluster h (s32 (im_size x)) (k_base h)) as <-; [|apply kalike_insert, H].
  change (new_cluster (with_clusters k ∅) (s32 (im_size x)) (k_base (with_clusters k ∅)) = new_cluster (with_clusters h ∅) (s32 (im_size x)) (k_base (with_clusters h ∅))). rewrite Ho. reflexivity.
Qed.
Lemma ktrain_loop_alike lhs env L : forall xs ls i k h, ls ⊆ L -> kalike L k h -> ekalike L (clus_train_loop lhs env i k xs ls) (clus_train_loop lhs env i h xs ls).
Proof.
  induction xs as [|x xs IH]; intros [|l ls] i k h Hs H; try (split; [reflexivity|exact H]). cbn [clus_train_loop].
  apply ekalike_bind; [apply ktrain1_alike; [apply Hs; left|exact H]|]. intros _ w' v' H'. apply IH; [|exact H']. intros m Hm. apply Hs. right. exact Hm.
Qed.
(** A call of train(images, labels). *)
Definition ktrain : Type := (nat -> draw) * list image * list str.
Definition ktrain_run (lhs_first : bool) (k : cluswisard) (c : ktrain) : eff cluswisard unit := clus_train lhs_first c.1.1 k c.1.2 c.2.
Definition ktrain_labels (c : ktrain) : list str := c.2.
Lemma kcall_alike lhs k h c : kalike (ktrain_labels c) k h -> ekalike (ktrain_labels c) (ktrain_run lhs k c) (ktrain_run lhs h c).
Proof.
  intros H. destruct c as [[env xs] ls]. unfold ktrain_run, ktrain_labels in *. cbn [fst snd] in *. unfold clus_train. destruct xs as [|x0 xs]; [split; [reflexivity|exact H]|].
  assert (clus_first_checks k x0 = clus_first_checks h x0) as <-.
  { change (clus_first_checks (with_clusters k ∅) x0 = clus_first_checks (with_clusters h ∅) x0). rewrite (proj1 H). reflexivity. }
  apply ekalike_bind; [unfold elift; split; [reflexivity|exact H]|]. intros _ k' h' H'. apply ktrain_loop_alike; [reflexivity|exact H'].
Qed.
Lemma kalike_eq k h : with_clusters k ∅ = with_clusters h ∅ -> k_clusters k = k_clusters h -> k = h.
Proof. intros E1 E2. destruct k, h. unfold with_clusters in E1. cbn in *. injection E1; intros; subst; reflexivity. Qed.
Lemma framed_opts k k' : framed k k' -> with_clusters k' ∅ = with_clusters k ∅.
Proof. intros ->. reflexivity. Qed.
Lemma ktrains_commute lhs k c c' o o' k1 k2 : (forall l, l ∈ ktrain_labels c -> l ∉ ktrain_labels c') -> ktrain_run lhs k c = (o, k1) -> ktrain_run lhs k1 c' = (o', k2) ->
  exists k1', ktrain_run lhs k c' = (o', k1') /\ ktrain_run lhs k1' c = (o, k2).
Proof.
  intros Hdis E1 E2. destruct (ktrain_run lhs k c') as [o2 k1'] eqn:E3. destruct (ktrain_run lhs k1' c) as [o1 k2'] eqn:E4.
  assert (P : forall k c, with_clusters (snd (ktrain_run lhs k c)) ∅ = with_clusters k ∅) by (intros; apply framed_opts, ctrain_frame).
  assert (O : forall k c B, B ∉ ktrain_labels c -> k_clusters (snd (ktrain_run lhs k c)) !! B = k_clusters k !! B) by (intros; apply ctrain_other; assumption).
  pose proof (P k c) as P1. pose proof (P k1 c') as P2. pose proof (P k c') as P3. pose proof (P k1' c) as P4.
  pose proof (O k c) as O1. pose proof (O k1 c') as O2. pose proof (O k c') as O3. pose proof (O k1' c) as O4.
  rewrite E1 in P1, O1. rewrite E2 in P2, O2. rewrite E3 in P3, O3. rewrite E4 in P4, O4. cbn [snd] in *.
  assert (A1 : kalike (ktrain_labels c') k k1). { split; [congruence|]. intros l Hl. symmetry. apply O1. intros K. apply (Hdis l K Hl). }
  assert (A2 : kalike (ktrain_labels c) k k1'). { split; [congruence|]. intros l Hl. symmetry. apply O3. apply Hdis, Hl. }
  destruct (kcall_alike lhs _ _ c' A1) as [K1 [_ K2]]. destruct (kcall_alike lhs _ _ c A2) as [K3 [_ K4]]. rewrite E1 in K3, K4. rewrite E2 in K1, K2. rewrite E3 in K1, K2. rewrite E4 in K3, K4. cbn [fst snd] in *. subst o2 o1.
  exists k1'. split; [reflexivity|]. assert (k2' = k2) as ->; [|exact E4]. apply kalike_eq; [congruence|]. apply map_eq. intros l.
  destruct (decide (l ∈ ktrain_labels c)) as [Hl|Hl].
  - rewrite <- (K4 l Hl). rewrite (O2 l (Hdis l Hl)). reflexivity.
  - rewrite (O4 l Hl). destruct (decide (l ∈ ktrain_labels c')) as [Hl'|Hl']; [apply K2, Hl'|]. rewrite (O3 l Hl'), (O2 l Hl'), (O1 l Hl). reflexivity.
Qed.
(** C168 for ClusWisard. *)
Theorem C168_cluswisard : forall lhs_first k (z z' : schedule ktrain),
  (forall t, of_thread t z = of_thread t z') -> labels_apart ktrain_labels z -> all_defined (fst (played (ktrain_run lhs_first) k z)) ->
  snd (played (ktrain_run lhs_first) k z') = snd (played (ktrain_run lhs_first) k z) /\
  all_defined (fst (played (ktrain_run lhs_first) k z')) /\
  forall t, seen_by t z' (fst (played (ktrain_run lhs_first) k z')) = seen_by t z (fst (played (ktrain_run lhs_first) k z)).
Proof.
  intros lhs k z z' Heq Hap Hd. apply (reschedule (ktrain_run lhs) (fun c c' => forall l, l ∈ ktrain_labels c -> l ∉ ktrain_labels c')); [intros *; apply ktrains_commute|exact Heq| |exact Hd].
  intros t c t' c' Hc Hc' Hne l Hl. apply (Hap t c t' c' l Hc Hc' Hne Hl).
Qed.
Print Assumptions C168_cluswisard.
Definition kbusy : schedule ktrain := [(0%nat, (envs, [x1; x2], [ka; ka])); (0%nat, (envs, [x1], [ka; ka])); (1%nat, (envs, [x4], [kb]))].
Definition kbusy' : schedule ktrain := [(0%nat, (envs, [x1; x2], [ka; ka])); (1%nat, (envs, [x4], [kb])); (0%nat, (envs, [x1], [ka; ka]))].
Example C168_cluswisard_witness : (forall t, of_thread t kbusy = of_thread t kbusy') /\ labels_apart ktrain_labels kbusy /\
  fst (played (ktrain_run true) (kfg 2) kbusy) = [Ok tt; Throw sizes_exn; Ok tt] /\
  fst (played (ktrain_run true) (kfg 2) kbusy') = [Ok tt; Ok tt; Throw sizes_exn] /\
  clus_classify (snd (played (ktrain_run true) (kfg 2) kbusy')) [x1; x2; x4] = Ok [ka; ka; kb].
Proof.
  split; [apply two_threads; [repeat (apply Forall_cons; split; [auto|]); apply Forall_nil; exact I..|reflexivity|reflexivity]|]. split.
  - intros t c t' c' l Hc Hc' Hne Hl Hl'. unfold kbusy in *. rewrite !elem_of_cons, !elem_of_nil in Hc, Hc'.
    destruct_or! Hc; destruct_or! Hc'; try contradiction; injection Hc as -> ->; injection Hc' as -> ->; try congruence; apply elem_of_list_In in Hl, Hl'; cbn in Hl, Hl'; destruct_or? Hl; destruct_or? Hl'; try contradiction; subst; discriminate.
  - vm_compute. repeat split.
Qed.
Print Assumptions C168_cluswisard_witness.
