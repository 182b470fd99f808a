(** The model with pointers and the model with values agree as long as nothing is copied (C119-C121). *)
From Verif Require Import Prelude Bytes Utils BinInput Float32 Ram Json Fs RamData Disc Cluster Heap.

Definition ptrs (c : pcluster) : list nat := omap id (pc_ptrs c).
(** Every object lies below the next address. *)
Definition heap_ok (h : heap) : Prop := forall a d, hp_cells h !! a = Some d -> (a < hp_next h)%nat.
Definition repr (h : heap) (o : option nat) (od : option disc) : Prop :=
  match o, od with Some a, Some d => hp_cells h !! a = Some d | None, None => True | _, _ => False end.
Definition crel (h : heap) (pc : pcluster) (c : cluster) : Prop :=
  pc_params pc = c_params c /\ Forall2 (repr h) (pc_ptrs pc) (c_discs c).

Lemma omap_app {A} (l1 l2 : list (option A)) : omap id (l1 ++ l2) = omap id l1 ++ omap id l2.
Proof. induction l1 as [|[x|] l1 IH]; [reflexivity|cbn; f_equal; exact IH|exact IH]. Qed.
Lemma omap_elem {A} (l : list (option A)) (a : A) : a ∈ omap id l <-> Some a ∈ l.
Proof.
  induction l as [|[x|] l IH]; cbn; [split; intros H; inversion H| |].
  - rewrite !elem_of_cons, IH. split; intros [H|H]; auto; [left; congruence|left; congruence].
  - rewrite elem_of_cons, IH. split; [auto|intros [H|H]; [discriminate|exact H]].
Qed.
Lemma repr_weaken h h' o od : (forall a, o = Some a -> hp_cells h' !! a = hp_cells h !! a) -> repr h o od -> repr h' o od.
Proof. destruct o as [a|], od as [d|]; cbn; auto. intros H E. rewrite (H a eq_refl). exact E. Qed.
Lemma reprs_weaken h h' (l : list (option nat)) (ds : list (option disc)) :
  (forall a, a ∈ omap id l -> hp_cells h' !! a = hp_cells h !! a) -> Forall2 (repr h) l ds -> Forall2 (repr h') l ds.
Proof.
  intros H F. induction F as [|o od l ds Ho F IH]; [constructor|]. constructor.
  - eapply repr_weaken; [|exact Ho]. intros a ->. apply H. cbn. left.
  - apply IH. intros a Ha. apply H. destruct o; cbn; [right|]; exact Ha.
Qed.
Lemma reprs_alloc h (l : list (option nat)) (ds : list (option disc)) a : Forall2 (repr h) l ds -> a ∈ omap id l -> is_Some (hp_cells h !! a).
Proof.
  intros F Ha. apply omap_elem in Ha. apply elem_of_list_lookup in Ha as [i Hi]. destruct (Forall2_lookup_l _ _ _ _ _ F Hi) as (od & _ & Hr).
  destruct od as [d|]; cbn in Hr; [eauto|contradiction].
Qed.

(** What an operation on one cluster may change. *)
Definition framed_change (own : list nat) (h h' : heap) : Prop :=
  (hp_next h <= hp_next h')%nat /\ heap_ok h' /\ (forall a, (a < hp_next h)%nat -> a ∉ own -> hp_cells h' !! a = hp_cells h !! a).
Lemma framed_refl own h : heap_ok h -> framed_change own h h.
Proof. intros H. split; [lia|]. auto. Qed.
Lemma framed_trans own h1 h2 h3 : framed_change own h1 h2 -> framed_change own h2 h3 -> framed_change own h1 h3.
Proof.
  intros (A1 & A2 & A3) (B1 & B2 & B3). split; [lia|]. split; [exact B2|]. intros a Ha Ho. rewrite B3 by (auto; lia). apply A3; assumption.
Qed.
Lemma framed_sub own own' h h' : (forall a, a ∈ own -> a ∈ own' \/ (hp_next h <= a)%nat) -> framed_change own h h' -> framed_change own' h h'.
Proof. intros H (A1 & A2 & A3). split; [exact A1|]. split; [exact A2|]. intros a Ha Ho. apply A3; [exact Ha|]. intros Hin. destruct (H a Hin); [contradiction|lia]. Qed.

Lemma write_ok h a d : heap_ok h -> is_Some (hp_cells h !! a) -> heap_ok (hp_write h a d).
Proof. intros H [d0 Hd] b e. cbn. rewrite lookup_insert_Some. intros [[<- _]|[_ E]]; [exact (H a d0 Hd)|exact (H b e E)]. Qed.

(** bestDiscriminator: the pointer at the index that the value model remembers. *)
Definition best_rel (all : list (option nat)) (bi : option nat) (bp : option nat) : Prop :=
  match bi with
  | Some k => match bp with Some a => all !! k = Some (Some a) | None => False end
  | None => match bp with Some _ => False | None => True end
  end.
Lemma scan_rel p im (l : list (option nat)) (ds : list (option disc)) : forall (all : list (option nat)) (h : heap) (i : nat) best bi bp trained,
  heap_ok h -> Forall2 (repr h) l ds -> NoDup (omap id l) -> drop i all = l ->
  best_rel all bi bp ->
  let '(r, ds') := cluster_scan p im ds i best bi trained in
  let '(r', h') := pc_scan p im l best bp trained h in
  Forall2 (repr h') l ds' /\ hp_next h' = hp_next h /\ framed_change (omap id l) h h' /\
  match r, r' with
  | Ok (bi', t), Ok (bp', t') => t = t' /\ best_rel all bi' bp'
  | Throw e, Throw e' => e = e'
  | UB u, UB u' => u = u'
  | Hang, Hang => True
  | _, _ => False
  end.
Proof.
  revert ds. induction l as [|o l IH]; intros ds all h i best bi bp trained Hok F Hnd Hdrop Hb.
  - apply Forall2_nil_inv_l in F as ->. cbn [cluster_scan pc_scan]. split; [constructor|]. split; [reflexivity|]. split; [apply framed_refl, Hok|]. split; [reflexivity|exact Hb].
  - apply Forall2_cons_inv_l in F as (od & ds' & Hr & F & ->).
    assert (Hi : all !! i = Some o) by (rewrite <- (Nat.add_0_r i), <- lookup_drop, Hdrop; reflexivity).
    assert (Hdrop' : drop (S i) all = l).
    { replace (S i) with (i + 1)%nat by lia. rewrite <- drop_drop, Hdrop. reflexivity. }
    destruct od as [d|]; destruct o as [a|]; try contradiction.
    2:{ cbn [cluster_scan pc_scan hp_read rbind]. split; [constructor; [exact I|exact F]|]. split; [reflexivity|]. split; [apply framed_refl, Hok|reflexivity]. }
    cbn in Hr. cbn [cluster_scan pc_scan hp_read]. rewrite Hr. cbn [rbind].
    cbn [omap list_omap id] in Hnd. apply NoDup_cons in Hnd as [Hna Hnd].
    destruct (disc_classify d im) as [votes|e|u|] eqn:Ec; cbn [rbind];
      try (split; [constructor; [exact Hr|exact F]|]; split; [reflexivity|]; split; [apply framed_refl, Hok|reflexivity]).
    set (best' := if f32_leb best (getScore votes) then getScore votes else best).
    set (bi' := if f32_leb best (getScore votes) then Some i else bi).
    set (bp' := if f32_leb best (getScore votes) then Some a else bp).
    assert (Hb' : best_rel all bi' bp').
    { unfold bi', bp'. destruct (f32_leb best (getScore votes)); [exact Hi|exact Hb]. }
    clearbody best' bi' bp'. destruct (f32_leb (train_limit p d) (getScore votes)).
    + unfold hp_train. cbn [hp_read]. rewrite Hr. cbn [rbind]. destruct (disc_train d im) as [r d'] eqn:Et.
      assert (Hw : framed_change (a :: omap id l) h (hp_write h a d')).
      { split; [cbn; lia|]. split; [apply write_ok; [exact Hok|eauto]|]. intros b Hb2 Hn. cbn. apply lookup_insert_ne. intros <-. apply Hn. left. }
      assert (F' : Forall2 (repr (hp_write h a d')) l ds').
      { eapply reprs_weaken; [|exact F]. intros b Hb2. cbn. apply lookup_insert_ne. intros <-. contradiction. }
      destruct r as [[]|e|u|]; cbn [ebind].
      * specialize (IH ds' all (hp_write h a d') (S i) best' bi' bp' true (proj1 (proj2 Hw)) F' Hnd Hdrop' Hb').
        destruct (cluster_scan p im ds' (S i) best' bi' true) as [r rest]. destruct (pc_scan p im l best' bp' true (hp_write h a d')) as [r' h'].
        destruct IH as (G1 & G2 & G3 & G4). split; [constructor; [|exact G1]|].
        { cbn. destruct G3 as (_ & _ & G3). rewrite G3; [cbn; apply lookup_insert|cbn; exact (Hok a d Hr)|exact Hna]. }
        split; [exact G2|]. split; [|exact G4]. eapply framed_trans; [exact Hw|]. eapply framed_sub; [|exact G3]. intros b Hb2. left. right. exact Hb2.
      * split; [constructor; [cbn; apply lookup_insert|exact F']|]. split; [reflexivity|]. split; [exact Hw|reflexivity].
      * split; [constructor; [cbn; apply lookup_insert|exact F']|]. split; [reflexivity|]. split; [exact Hw|reflexivity].
      * split; [constructor; [cbn; apply lookup_insert|exact F']|]. split; [reflexivity|]. split; [exact Hw|reflexivity].
    + specialize (IH ds' all h (S i) best' bi' bp' trained Hok F Hnd Hdrop' Hb').
      destruct (cluster_scan p im ds' (S i) best' bi' trained) as [r rest]. destruct (pc_scan p im l best' bp' trained h) as [r' h'].
      destruct IH as (G1 & G2 & G3 & G4). split; [constructor; [|exact G1]|].
      { cbn. destruct G3 as (_ & _ & G3). rewrite G3; [exact Hr|exact (Hok a d Hr)|exact Hna]. }
      split; [exact G2|]. split; [|exact G4]. eapply framed_sub; [|exact G3]. intros b Hb2. left. right. exact Hb2.
Qed.

Definition good_end (h : heap) (pc : pcluster) (r : res unit) (c' : cluster) (r' : res unit) (h' : heap) (pc' : pcluster) : Prop :=
  r = r' /\ framed_change (ptrs pc) h h' /\ (forall a, a ∈ ptrs pc' -> a ∈ ptrs pc \/ (hp_next h <= a)%nat) /\
  (match r with Ok _ | Throw _ => crel h' pc' c' /\ NoDup (ptrs pc') | _ => True end).

Lemma make_train_rel lhs dr im h pc c : heap_ok h -> crel h pc c -> NoDup (ptrs pc) ->
  let '(r, c') := ebind (cluster_make lhs dr c) (fun _ c1 => cluster_train_at c1 (length (c_discs c)) im) in
  let '(r', (h', pc')) := ebind (pc_make lhs dr (h, pc)) (fun _ s => pc_train_last im s) in
  good_end h pc r c' r' h' pc'.
Proof.
  intros Hok [Hp F] Hnd. unfold cluster_make, pc_make. rewrite Hp. destruct (c_params c) as [p|] eqn:Ep.
  2:{ cbn [ebind]. split; [reflexivity|]. split; [apply framed_refl, Hok|]. split; [auto|exact I]. }
  destruct (setRAMShuffle _ _ _ _ _ _) as [d|e|u|].
  - cbn [hp_new ebind]. unfold cluster_train_at. cbn [with_discs c_discs].
    assert (Hl : (c_discs c ++ [Some d]) !! length (c_discs c) = Some (Some d)) by (apply list_lookup_middle; reflexivity).
    rewrite Hl. unfold pc_train_last. cbn [with_ptrs pc_ptrs]. rewrite last_snoc. cbn [mjoin option_join]. unfold hp_train. cbn [hp_read hp_cells]. rewrite lookup_insert.
    destruct (disc_train d im) as [r d']. set (n := hp_next h).
    assert (Hfr : forall a, a ∈ ptrs pc -> (a < n)%nat).
    { intros a Ha. destruct (reprs_alloc h _ _ a F Ha) as [e He]. exact (Hok a e He). }
    set (h' := hp_write (Heap (<[n:=d]> (hp_cells h)) (S n)) n d').
    assert (Hc : forall a, (a < n)%nat -> hp_cells h' !! a = hp_cells h !! a).
    { intros a Ha. cbn. rewrite !lookup_insert_ne by lia. reflexivity. }
    assert (Eins : <[length (c_discs c):=Some d']> (c_discs c ++ [Some d]) = c_discs c ++ [Some d']).
    { rewrite insert_app_r_alt by lia. rewrite Nat.sub_diag. reflexivity. }
    split; [reflexivity|]. split.
    { split; [cbn; lia|]. split; [|intros a Ha _; apply Hc, Ha]. intros a e. cbn. rewrite !lookup_insert_Some. intros [[<- _]|[_ [[<- _]|[_ E]]]]; try lia. pose proof (Hok a e E). unfold n. lia. }
    unfold ptrs. cbn [with_ptrs pc_ptrs]. rewrite omap_app. cbn [omap list_omap id]. split.
    { intros a Ha. apply elem_of_app in Ha as [Ha|Ha]; [left; exact Ha|right]. apply elem_of_list_singleton in Ha as ->. unfold n. lia. }
    assert (crel h' (PCluster (pc_params pc) (pc_ptrs pc ++ [Some n])) (with_discs (Cluster (c_params c) (c_discs c ++ [Some d])) (c_discs c ++ [Some d'])) /\ NoDup (omap id (pc_ptrs pc) ++ [n])) as Hend.
    { split.
      - split; [cbn; congruence|]. cbn [pc_ptrs with_discs c_discs]. apply Forall2_app; [|constructor; [cbn; apply lookup_insert|constructor]].
        eapply reprs_weaken; [|exact F]. intros a Ha. apply Hc, Hfr, Ha.
      - apply NoDup_app. split; [exact Hnd|]. split; [|apply NoDup_singleton]. intros a Ha Hin. apply elem_of_list_singleton in Hin as ->. specialize (Hfr n Ha). lia. }
    unfold with_discs in *. cbn [c_params c_discs] in *. rewrite Eins. unfold with_ptrs. destruct r as [[]| | |]; try exact I; rewrite <- ?Ep; exact Hend.
  - cbn [ebind]. destruct lhs.
    + split; [reflexivity|]. split; [apply framed_refl, Hok|]. unfold ptrs. cbn [with_ptrs pc_ptrs]. rewrite omap_app. cbn [omap list_omap id].
      rewrite app_nil_r. split; [auto|]. split; [|exact Hnd]. split; [cbn; congruence|]. cbn [with_ptrs pc_ptrs with_discs c_discs]. apply Forall2_app; [exact F|]. constructor; [exact I|constructor].
    + split; [reflexivity|]. split; [apply framed_refl, Hok|]. split; [auto|]. split; [split; [congruence|exact F]|exact Hnd].
  - cbn [ebind]. split; [reflexivity|]. split; [apply framed_refl, Hok|]. split; [auto|exact I].
  - cbn [ebind]. split; [reflexivity|]. split; [apply framed_refl, Hok|]. split; [auto|exact I].
Qed.

Lemma train_rel lhs dr im h pc c : heap_ok h -> crel h pc c -> NoDup (ptrs pc) ->
  let '(r, c') := cluster_train lhs dr c im in
  let '(r', (h', pc')) := pc_train lhs dr im (h, pc) in
  good_end h pc r c' r' h' pc'.
Proof.
  intros Hok [Hp F] Hnd. unfold cluster_train, pc_train. pose proof (Forall2_length _ _ _ F) as Hlen.
  destruct (c_discs c) as [|od ds] eqn:Ed.
  { destruct (pc_ptrs pc) as [|? ?] eqn:Ep; [|discriminate].
    pose proof (make_train_rel lhs dr im h pc c Hok) as M. rewrite Ed in M. apply M; [|exact Hnd]. split; [exact Hp|]. rewrite Ed, Ep. constructor. }
  destruct (pc_ptrs pc) as [|op ps] eqn:Ep; [discriminate|]. rewrite Hp. destruct (c_params c) as [p|] eqn:Ecp.
  2:{ split; [reflexivity|]. split; [apply framed_refl, Hok|]. split; [auto|exact I]. }
  rewrite <- Ed, <- Ep in *.
  pose proof (scan_rel p im (pc_ptrs pc) (c_discs c) (pc_ptrs pc) h 0%nat f32_zero None None false Hok F Hnd eq_refl I) as S.
  destruct (cluster_scan p im (c_discs c) 0 f32_zero None false) as [r ds'] eqn:Es. destruct (pc_scan p im (pc_ptrs pc) f32_zero None false h) as [r' h1] eqn:Eh.
  destruct S as (S1 & S2 & S3 & S4). change (omap id (pc_ptrs pc)) with (ptrs pc) in S3.
  assert (Hcr : crel h1 pc (with_discs c ds')) by (split; [cbn; congruence|exact S1]).
  destruct r as [[bi t]|e|u|], r' as [[bp t']|e'|u'|]; try contradiction.
  - destruct S4 as [<- S4]. destruct t.
    { split; [reflexivity|]. split; [exact S3|]. split; [auto|]. split; [exact Hcr|exact Hnd]. }
    assert (El : len ds' = len (pc_ptrs pc)) by (unfold len; rewrite (Forall2_length _ _ _ S1); reflexivity). rewrite El.
    destruct (s32 (len (pc_ptrs pc)) <? p_limit p).
    + pose proof (make_train_rel lhs dr im h1 pc (with_discs c ds') (proj1 (proj2 S3)) Hcr Hnd) as M. cbn [with_discs c_discs] in M.
      unfold with_discs in *. cbn [c_params c_discs] in *.
      destruct (ebind (cluster_make _ _ _) _) as [r c']. destruct (ebind (pc_make _ _ _) _) as [r' [h2 pc']].
      destruct M as (M1 & M2 & M3 & M4). split; [exact M1|]. split; [eapply framed_trans; eassumption|]. split; [|exact M4].
      intros a Ha. destruct (M3 a Ha); [left; assumption|right]. lia.
    + destruct bi as [i|], bp as [a|]; try contradiction.
      2:{ split; [reflexivity|]. split; [exact S3|]. split; [auto|]. split; [exact Hcr|exact Hnd]. }
      cbn in S4. destruct (Forall2_lookup_l _ _ _ _ _ S1 S4) as (od1 & Hod & Hr). destruct od1 as [d|]; [|contradiction]. cbn in Hr.
      unfold cluster_train_at. cbn [with_discs c_discs]. rewrite Hod. unfold hp_train. cbn [hp_read]. rewrite Hr. cbn [rbind].
      destruct (disc_train d im) as [r d'].
      assert (Hin : a ∈ ptrs pc) by (apply omap_elem, elem_of_list_lookup; eauto).
      assert (Hw : framed_change (ptrs pc) h1 (hp_write h1 a d')).
      { split; [cbn; lia|]. split; [apply write_ok; [exact (proj1 (proj2 S3))|eauto]|]. intros b Hb Hn. cbn. apply lookup_insert_ne. intros <-. contradiction. }
      split; [reflexivity|]. split; [eapply framed_trans; eassumption|]. split; [auto|].
      assert (crel (hp_write h1 a d') pc (Cluster (c_params c) (<[i:=Some d']> ds')) /\ NoDup (ptrs pc)) as Hend.
      { split; [|exact Hnd]. split; [cbn; congruence|]. cbn [c_discs]. apply Forall2_lookup. intros k.
        destruct (decide (k = i)) as [->|Hki].
        - rewrite S4. rewrite list_lookup_insert by (eapply lookup_lt_Some; exact Hod). constructor. cbn. apply lookup_insert.
        - rewrite list_lookup_insert_ne by congruence. pose proof (proj1 (Forall2_lookup _ _ _) S1 k) as Sk.
          inversion Sk as [x y Hxy Hx Hy|Hx Hy]; constructor. eapply repr_weaken; [|exact Hxy]. intros b ->. cbn. apply lookup_insert_ne. intros <-.
          apply Hki. assert (N := Hnd). unfold ptrs in N. clear -N S4 Hx. revert k i S4 Hx. induction (pc_ptrs pc) as [|o l IH]; intros k i S4 Hx; [discriminate|].
          destruct k as [|k], i as [|i]; [reflexivity| | |].
          + cbn in Hx. injection Hx as Hx. subst o. cbn in S4, N. apply NoDup_cons in N as [N _]. exfalso. apply N, omap_elem, elem_of_list_lookup. eauto.
          + cbn in S4. injection S4 as S4. subst o. cbn in Hx, N. apply NoDup_cons in N as [N _]. exfalso. apply N, omap_elem, elem_of_list_lookup. eauto.
          + f_equal. apply IH; [|exact S4|exact Hx]. destruct o; cbn in N; [apply NoDup_cons in N as [_ N]|]; exact N. }
      unfold with_discs in *. cbn [c_params c_discs] in *. destruct r as [[]| | |]; try exact I; rewrite <- ?Ecp; exact Hend.
  - subst e'. split; [reflexivity|]. split; [exact S3|]. split; [auto|]. split; [exact Hcr|exact Hnd].
  - subst u'. split; [reflexivity|]. split; [exact S3|]. split; [auto|exact I].
  - split; [reflexivity|]. split; [exact S3|]. split; [auto|exact I].
Qed.

(** ** Reading and loading *)
Lemma reads_rel {A} (f : disc -> res A) h pc c : crel h pc c -> pc_reads f h pc = on_discs f c.
Proof.
  intros [_ F]. unfold pc_reads, on_discs. induction F as [|o od l ds Ho F IH]; [reflexivity|]. cbn [rmapM].
  destruct o as [a|], od as [d|]; cbn in Ho; try contradiction; cbn [hp_read rbind]; [|reflexivity]. rewrite Ho. cbn [rbind]. rewrite IH. reflexivity.
Qed.
Lemma load_rel f cfg (l : list json) : forall h (ps : list (option nat)), heap_ok h ->
  let '(r', h') := pc_load_discs f cfg l h ps in
  framed_change [] h h' /\
  match load_discs f cfg l with
  | Ok ds => exists more, r' = Ok (ps ++ more) /\ Forall2 (repr h') more ds /\ NoDup (omap id more) /\ (forall a, a ∈ omap id more -> (hp_next h <= a)%nat)
  | Throw e => r' = Throw e
  | UB u => r' = UB u
  | Hang => r' = Hang
  end.
Proof.
  induction l as [|d l IH]; intros h ps Hok.
  - cbn. split; [apply framed_refl, Hok|]. exists []. rewrite app_nil_r. split; [reflexivity|]. split; [constructor|]. split; [constructor|]. intros a Ha. inversion Ha.
  - cbn [pc_load_discs load_discs]. destruct (disc_of_json f (merge_patch d cfg)) as [d'|e|u|]; cbn [rbind].
    2-4: (split; [apply framed_refl, Hok|reflexivity]).
    cbn [hp_new]. set (h1 := Heap (<[hp_next h:=d']> (hp_cells h)) (S (hp_next h))).
    assert (Hok1 : heap_ok h1) by (intros a e; cbn; rewrite lookup_insert_Some; intros [[<- _]|[_ E]]; [lia|pose proof (Hok a e E); lia]).
    assert (Hfr1 : framed_change [] h h1) by (split; [cbn; lia|]; split; [exact Hok1|]; intros a Ha _; cbn; apply lookup_insert_ne; lia).
    specialize (IH h1 (ps ++ [Some (hp_next h)]) Hok1). destruct (pc_load_discs f cfg l h1 _) as [r' h']. destruct IH as [Hfr IH].
    split; [eapply framed_trans; eassumption|]. destruct (load_discs f cfg l) as [ds|e|u|]; cbn [rbind]; try exact IH.
    destruct IH as (more & -> & H1 & H2 & H3). exists (Some (hp_next h) :: more). rewrite <- app_assoc. split; [reflexivity|].
    cbn [omap list_omap id]. split; [|split].
    + constructor; [|exact H1]. cbn. destruct Hfr as (_ & _ & Hfr). rewrite Hfr; [cbn; apply lookup_insert|cbn; lia|apply not_elem_of_nil].
    + constructor; [|exact H2]. intros Hin. specialize (H3 _ Hin). cbn in H3. lia.
    + intros a Ha. apply elem_of_cons in Ha as [->|Ha]; [lia|]. specialize (H3 a Ha). cbn in H3. lia.
Qed.
Lemma ofjson_rel f o h : heap_ok h ->
  let '(r', h') := pc_of_json f o h in
  framed_change [] h h' /\
  match cluster_of_json f o with
  | Ok c => exists pc, r' = Ok pc /\ crel h' pc c /\ NoDup (ptrs pc) /\ (forall a, a ∈ ptrs pc -> (hp_next h <= a)%nat)
  | Throw e => r' = Throw e
  | UB u => r' = UB u
  | Hang => r' = Hang
  end.
Proof.
  intros Hok. unfold pc_of_json, cluster_of_json.
  assert (R : forall P : Prop, P -> framed_change [] h h /\ P) by (intros P H; split; [apply framed_refl, Hok|exact H]).
  destruct (jopt jget_int 2 o (lit "addressSize")) as [x1| | |]; cbn [rbind]; try (apply R; reflexivity).
  destruct (jopt jget_int 2 o (lit "entrySize")) as [x2| | |]; cbn [rbind]; try (apply R; reflexivity).
  destruct (jopt jget_float (f32_of_Z 2) o (lit "minScore")) as [x3| | |]; cbn [rbind]; try (apply R; reflexivity).
  destruct (jopt jget_int 2 o (lit "discriminatorsLimit")) as [x4| | |]; cbn [rbind]; try (apply R; reflexivity).
  destruct (jopt jget_uint 2 o (lit "threshold")) as [x5| | |]; cbn [rbind]; try (apply R; reflexivity).
  destruct (jopt jget_bool false o (lit "ignoreZero")) as [x6| | |]; cbn [rbind]; try (apply R; reflexivity).
  destruct (jopt jget_bool true o (lit "completeAddressing")) as [x7| | |]; cbn [rbind]; try (apply R; reflexivity).
  destruct (jopt jget_int 2 o (lit "base")) as [x8| | |]; cbn [rbind]; try (apply R; reflexivity).
  destruct (jfield o (lit "discriminators")) as [dc| | |]; cbn [rbind]; try (apply R; reflexivity).
  cbn [p_ignoreZero p_base]. generalize (jobject [(lit "ignoreZero", JBool x6); (lit "base", JInt x8)]) as cfg. intros cfg.
  pose proof (load_rel f cfg (jvalues dc) h [] Hok) as L. destruct (pc_load_discs f cfg (jvalues dc) h []) as [r' h']. destruct L as [Hfr L].
  split; [exact Hfr|]. destruct (load_discs f cfg (jvalues dc)) as [ds|e|u|]; cbn [rbind]; try (rewrite L; reflexivity).
  destruct L as (more & -> & H1 & H2 & H3). cbn [rbind app]. eexists. split; [reflexivity|]. split; [split; [reflexivity|exact H1]|]. split; [exact H2|exact H3].
Qed.

(** ** Programs *)
Definition srel (s : pstate) (vm : gmap nat cluster) : Prop :=
  heap_ok s.1 /\
  (forall x, match s.2 !! x with
             | Some pc => exists c, vm !! x = Some c /\ crel s.1 pc c /\ NoDup (ptrs pc)
             | None => vm !! x = None
             end) /\
  (forall x y pcx pcy a, s.2 !! x = Some pcx -> s.2 !! y = Some pcy -> a ∈ ptrs pcx -> a ∈ ptrs pcy -> x = y).

Lemma crel_frame own h h' pc c : framed_change own h h' -> heap_ok h -> crel h pc c -> (forall a, a ∈ ptrs pc -> a ∉ own) -> crel h' pc c.
Proof.
  intros (_ & _ & Hc) Hok [Hp F] Ho. split; [exact Hp|]. eapply reprs_weaken; [|exact F]. intros a Ha.
  destruct (reprs_alloc h _ _ a F Ha) as [d Hd]. apply Hc; [exact (Hok a d Hd)|apply Ho, Ha].
Qed.
(** One cluster is replaced; the others are left alone. *)
Lemma srel_update h m vm h' own x pc' c' : srel (h, m) vm -> framed_change own h h' ->
  (forall y pc, y <> x -> m !! y = Some pc -> forall a, a ∈ ptrs pc -> a ∉ own) ->
  crel h' pc' c' -> NoDup (ptrs pc') ->
  (forall y pc a, y <> x -> m !! y = Some pc -> a ∈ ptrs pc' -> a ∉ ptrs pc) ->
  srel (h', <[x := pc']> m) (<[x := c']> vm).
Proof.
  intros (Hok & Hv & Hd) Hfr Hown Hc Hnd Hnew. cbn [fst snd] in *. split; [exact (proj1 (proj2 Hfr))|]. cbn [fst snd]. split.
  - intros y. destruct (decide (y = x)) as [->|Hy].
    + rewrite !lookup_insert. exists c'. auto.
    + rewrite !lookup_insert_ne by congruence. specialize (Hv y). destruct (m !! y) as [pc|] eqn:E; [|exact Hv]. destruct Hv as (c & E1 & E2 & E3).
      exists c. split; [exact E1|]. split; [|exact E3]. eapply crel_frame; [exact Hfr|exact Hok|exact E2|]. exact (Hown y pc Hy E).
  - intros y z pcy pcz a Ey Ez Hay Haz. destruct (decide (y = x)) as [->|Hy], (decide (z = x)) as [->|Hz]; try reflexivity.
    + rewrite lookup_insert in Ey. rewrite lookup_insert_ne in Ez by congruence. injection Ey as <-. exfalso. exact (Hnew z pcz a Hz Ez Hay Haz).
    + rewrite lookup_insert in Ez. rewrite lookup_insert_ne in Ey by congruence. injection Ez as <-. exfalso. exact (Hnew y pcy a Hy Ey Haz Hay).
    + rewrite lookup_insert_ne in Ey, Ez by congruence. eapply Hd; eassumption.
Qed.
Lemma srel_frame h m vm h' : srel (h, m) vm -> framed_change [] h h' -> srel (h', m) vm.
Proof.
  intros (Hok & Hv & Hd) Hfr. split; [exact (proj1 (proj2 Hfr))|]. cbn [fst snd] in *. split; [|exact Hd]. intros y. specialize (Hv y).
  destruct (m !! y) as [pc|]; [|exact Hv]. destruct Hv as (c & E1 & E2 & E3). exists c. split; [exact E1|]. split; [|exact E3].
  eapply crel_frame; [exact Hfr|exact Hok|exact E2|]. intros a _. apply not_elem_of_nil.
Qed.
Lemma srel_delete h m vm x : srel (h, m) vm -> srel (h, delete x m) (delete x vm).
Proof.
  intros (Hok & Hv & Hd). cbn [fst snd] in *. split; [exact Hok|]. cbn [fst snd]. split.
  - intros y. destruct (decide (y = x)) as [->|Hy]; [rewrite !lookup_delete; reflexivity|]. rewrite !lookup_delete_ne by congruence. exact (Hv y).
  - intros y z pcy pcz a Ey Ez. apply lookup_delete_Some in Ey as [_ Ey]. apply lookup_delete_Some in Ez as [_ Ez]. eapply Hd; eassumption.
Qed.
Lemma ptr_old h m vm y pc a : srel (h, m) vm -> m !! y = Some pc -> a ∈ ptrs pc -> (a < hp_next h)%nat.
Proof.
  intros (Hok & Hv & _) E Ha. cbn [fst snd] in *. specialize (Hv y). rewrite E in Hv. destruct Hv as (c & _ & [_ F] & _).
  destruct (reprs_alloc h _ _ a F Ha) as [d Hd]. exact (Hok a d Hd).
Qed.

Definition continues {A} (r : res A) : Prop := match r with Ok _ | Throw _ => True | _ => False end.
Lemma step_rel o s vm : (forall x y, o <> PCopy x y) -> srel s vm ->
  let '(r, s') := pstep o s in let '(r', vm') := vstep o vm in r = r' /\ (continues r -> srel s' vm').
Proof.
  destruct s as [h m]. intros Hnc R. pose proof R as (Hok & Hv & Hd). cbn [fst snd] in *.
  assert (Hempty : forall x p, srel (h, <[x := PCluster p []]> m) (<[x := Cluster p []]> vm)).
  { intros x p. apply (srel_update h m vm h [] x); [exact R|apply framed_refl, Hok|intros; apply not_elem_of_nil|split; [reflexivity|constructor]|constructor|].
    intros y pc a _ _ Ha. inversion Ha. }
  destruct o as [x es az ms th li co iz ba|x|x f o|x lhs dr im|x im|x iter|x|x y|x y|x]; cbn [pstep vstep]; unfold p_at, v_at; cbn [snd].
  - split; [reflexivity|]. intros _. apply Hempty.
  - split; [reflexivity|]. intros _. apply Hempty.
  - pose proof (ofjson_rel f o h Hok) as L. destruct (pc_of_json f o h) as [r h']. destruct L as [Hfr L].
    destruct (cluster_of_json f o) as [c|e|u|].
    + destruct L as (pc & -> & H1 & H2 & H3). split; [reflexivity|]. intros _. apply (srel_update h m vm h' [] x); auto.
      * intros y pcy Hy Ey a _. apply not_elem_of_nil.
      * intros y pcy a Hy Ey Ha Hin. specialize (H3 a Ha). pose proof (ptr_old h m vm y pcy a R Ey Hin). lia.
    + rewrite L. split; [reflexivity|]. intros _. eapply srel_frame; eassumption.
    + rewrite L. split; [reflexivity|]. intros [].
    + rewrite L. split; [reflexivity|]. intros [].
  - pose proof (Hv x) as Hx. destruct (m !! x) as [pc|] eqn:Ex; [|rewrite Hx; split; [reflexivity|intros []]]. destruct Hx as (c & -> & Hc & Hnd).
    pose proof (train_rel lhs dr im h pc c Hok Hc Hnd) as T. destruct (cluster_train lhs dr c im) as [r c']. destruct (pc_train lhs dr im (h, pc)) as [r' [h' pc']].
    destruct T as (-> & Hfr & Hnew & Hend). split; [reflexivity|]. intros Hcont.
    assert (crel h' pc' c' /\ NoDup (ptrs pc')) as [Hc' Hnd'] by (destruct r'; [exact Hend|exact Hend|destruct Hcont|destruct Hcont]).
    apply (srel_update h m vm h' (ptrs pc) x); auto.
    + intros y pcy Hy Ey a Ha Hin. apply Hy. eapply Hd; eassumption.
    + intros y pcy a Hy Ey Ha Hin. destruct (Hnew a Ha) as [Ho|Ho]; [apply Hy; eapply Hd; eassumption|]. pose proof (ptr_old h m vm y pcy a R Ey Hin). lia.
  - pose proof (Hv x) as Hx. destruct (m !! x) as [pc|] eqn:Ex; [|rewrite Hx; split; [reflexivity|intros []]]. destruct Hx as (c & -> & Hc & Hnd).
    unfold pc_classify, cluster_classify. rewrite (reads_rel _ h pc c Hc). split; [reflexivity|]. intros _. exact R.
  - pose proof (Hv x) as Hx. destruct (m !! x) as [pc|] eqn:Ex; [|rewrite Hx; split; [reflexivity|intros []]]. destruct Hx as (c & -> & Hc & Hnd).
    unfold pc_mental, cluster_mental. rewrite (reads_rel _ h pc c Hc). split; [reflexivity|]. intros _. exact R.
  - pose proof (Hv x) as Hx. destruct (m !! x) as [pc|] eqn:Ex; [|rewrite Hx; split; [reflexivity|intros []]]. destruct Hx as (c & -> & [_ F] & Hnd).
    unfold len. rewrite (Forall2_length _ _ _ F). split; [reflexivity|]. intros _. exact R.
  - pose proof (Hv x) as Hx. destruct (m !! x) as [pc|] eqn:Ex; [|rewrite Hx; split; [reflexivity|intros []]]. destruct Hx as (c & -> & Hc & Hnd).
    split; [reflexivity|]. intros _. apply (srel_update h (delete x m) (delete x vm) h [] y); auto.
    + apply srel_delete, R.
    + apply framed_refl, Hok.
    + intros; apply not_elem_of_nil.
    + intros z pcz a Hz Ez Ha Hin. apply lookup_delete_Some in Ez as [Hzx Ez]. apply Hzx. eapply Hd; eassumption.
  - exfalso. exact (Hnc x y eq_refl).
  - pose proof (Hv x) as Hx. destruct (m !! x) as [pc|] eqn:Ex; [|rewrite Hx; split; [reflexivity|intros []]]. destruct Hx as (c & -> & Hc & Hnd).
    split; [reflexivity|]. intros _. apply srel_delete, R.
Qed.
Lemma trace_rel (l : list cop) : forall s vm, Forall (fun o => forall x y, o <> PCopy x y) l -> srel s vm ->
  fst (trace pstep l s) = fst (trace vstep l vm).
Proof.
  induction l as [|o l IH]; intros s vm Hn R; [reflexivity|]. apply Forall_cons in Hn as [Ho Hn]. cbn [trace].
  pose proof (step_rel o s vm Ho R) as S. destruct (pstep o s) as [r s']. destruct (vstep o vm) as [r' vm']. destruct S as [<- S].
  destruct r; try reflexivity.
  all: specialize (IH s' vm' Hn (S I)); destruct (trace pstep l s'), (trace vstep l vm'); cbn [fst] in *; congruence.
Qed.
Lemma srel_start : srel (Heap ∅ 0, ∅) ∅.
Proof.
  split; [intros a d E; cbn in E; rewrite lookup_empty in E; discriminate|]. cbn [fst snd]. split; [intros x; rewrite !lookup_empty; reflexivity|].
  intros x y pcx pcy a E. rewrite lookup_empty in E. discriminate.
Qed.
