(** Discriminators made with new: which stay, how many are made, what a copy sees (C120-C122). *)
From Verif Require Import Prelude Bytes Utils BinInput Float32 Ram Json Fs RamData Disc Cluster Heap HeapProofs.

Definition grows (h h' : heap) : Prop :=
  (forall a, is_Some (hp_cells h !! a) -> is_Some (hp_cells h' !! a)) /\ (hp_next h <= hp_next h')%nat /\ (heap_ok h -> heap_ok h').
Lemma grows_refl h : grows h h.
Proof. split; [tauto|]. split; [lia|tauto]. Qed.
Lemma grows_trans h1 h2 h3 : grows h1 h2 -> grows h2 h3 -> grows h1 h3.
Proof. intros (A & B & C) (D & E & F). split; [auto|]. split; [lia|auto]. Qed.
Lemma new_grows h d : grows h (hp_new h d).2.
Proof.
  cbn. split; [|split; [cbn; lia|]].
  - intros a Ha. cbn. destruct (decide (a = hp_next h)) as [->|Hn]; [rewrite lookup_insert; eauto|rewrite lookup_insert_ne by congruence; exact Ha].
  - intros Hok a d' E. cbn in *. apply lookup_insert_Some in E as [[<- _]|[_ E]]; [lia|]. apply Hok in E. lia.
Qed.
Lemma train_grows h o im : grows h (hp_train h o im).2 /\ hp_next (hp_train h o im).2 = hp_next h.
Proof.
  unfold hp_train, hp_read. destruct o as [a|]; [|split; [apply grows_refl|reflexivity]].
  destruct (hp_cells h !! a) as [d|] eqn:Ea; [|split; [apply grows_refl|reflexivity]].
  destruct (disc_train d im) as [r d']. cbn. split; [|reflexivity]. split; [|split; [cbn; lia|]].
  - intros b Hb. cbn. destruct (decide (b = a)) as [->|Hn]; [rewrite lookup_insert; eauto|rewrite lookup_insert_ne by congruence; exact Hb].
  - intros Hok. apply write_ok; [exact Hok|rewrite Ea; eauto].
Qed.
Lemma scan_grows p im (l : list (option nat)) : forall best bp trained h,
  grows h (pc_scan p im l best bp trained h).2 /\ hp_next (pc_scan p im l best bp trained h).2 = hp_next h.
Proof.
  induction l as [|o l IH]; intros best bp trained h; cbn [pc_scan]; [split; [apply grows_refl|reflexivity]|].
  destruct (let* (_, d) := hp_read h o in let* votes := disc_classify d im in Ok (d, votes)) as [[d votes]| | |];
    try (split; [apply grows_refl|reflexivity]).
  cbv zeta. destruct (f32_leb (train_limit p d) (getScore votes)); [|apply IH].
  pose proof (train_grows h o im) as [G N]. destruct (hp_train h o im) as [r h1]. cbn [snd] in G, N. unfold ebind. destruct r; [|split; assumption..].
  match goal with |- grows h (snd (pc_scan _ _ _ ?b ?bp' _ _)) /\ _ => destruct (IH b bp' true h1) as [G' N'] end.
  split; [exact (grows_trans _ _ _ G G')|congruence].
Qed.
Definition extends (h : heap) (c : pcluster) (h' : heap) (c' : pcluster) : Prop :=
  grows h h' /\ (hp_next h' <= S (hp_next h))%nat /\ exists m, pc_ptrs c' = pc_ptrs c ++ m /\ forall a, Some a ∈ m -> is_Some (hp_cells h' !! a).
Lemma extends_refl h c : extends h c h c.
Proof. split; [apply grows_refl|]. split; [lia|]. exists []. split; [symmetry; apply app_nil_r|]. intros a Ha. apply elem_of_nil in Ha as []. Qed.
Lemma make_train_extends lhs dr im h c : let q := ebind (pc_make lhs dr (h, c)) (fun _ s => pc_train_last im s) in extends h c q.2.1 q.2.2.
Proof.
  cbv zeta. unfold pc_make. destruct (pc_params c) as [p|]; [|apply extends_refl].
  destruct (setRAMShuffle dr (s32 (p_entrySize p)) (s32 (p_addressSize p)) (p_ignoreZero p) (p_complete p) (p_base p)) as [d|e|u|]; cbn [ebind snd fst]; try apply extends_refl.
  - pose proof (new_grows h d) as G. cbn [hp_new snd] in G. cbn [hp_new ebind]. unfold pc_train_last.
    set (h1 := Heap _ _) in *. set (o := mjoin _). pose proof (train_grows h1 o im) as [G' N]. destruct (hp_train h1 o im) as [r h2]. cbn [fst snd] in *.
    split; [exact (grows_trans _ _ _ G G')|]. split; [rewrite N; subst h1; cbn; lia|]. exists [Some (hp_next h)]. split; [reflexivity|].
    intros a Ha. apply elem_of_list_singleton in Ha. injection Ha as ->. apply (proj1 G'). subst h1. cbn. rewrite lookup_insert. eauto.
  - destruct lhs; cbn [fst snd]; [|apply extends_refl]. split; [apply grows_refl|]. split; [lia|]. exists [None]. split; [reflexivity|].
    intros a Ha. apply elem_of_list_singleton in Ha. discriminate.
Qed.
Lemma pc_train_extends lhs dr im h c : let q := pc_train lhs dr im (h, c) in extends h c q.2.1 q.2.2.
Proof.
  cbv zeta. unfold pc_train. destruct (pc_ptrs c) as [|o l] eqn:Ep; [apply make_train_extends|]. rewrite <- Ep.
  destruct (pc_params c) as [p|]; [|apply extends_refl].
  pose proof (scan_grows p im (pc_ptrs c) f32_zero None false h) as [G N]. destruct (pc_scan p im (pc_ptrs c) f32_zero None false h) as [r h1]. cbn [snd] in G, N.
  assert (X : extends h c h1 c). { split; [exact G|]. split; [lia|]. exists []. split; [symmetry; apply app_nil_r|]. intros a Ha. apply elem_of_nil in Ha as []. }
  destruct r as [[bp t]| | |]; try exact X. destruct t; [exact X|].
  destruct (s32 (len (pc_ptrs c)) <? p_limit p).
  - pose proof (make_train_extends lhs dr im h1 c) as Y. cbv zeta in Y. destruct Y as (G' & N' & m & E & V).
    split; [exact (grows_trans _ _ _ G G')|]. split; [lia|]. exists m. split; assumption.
  - destruct bp as [a|]; [|exact X]. pose proof (train_grows h1 (Some a) im) as [G' N']. destruct (hp_train h1 (Some a) im) as [r h2]. cbn [fst snd] in *.
    split; [exact (grows_trans _ _ _ G G')|]. split; [lia|]. exists []. split; [symmetry; apply app_nil_r|]. intros b Hb. apply elem_of_nil in Hb as [].
Qed.
Lemma load_grows f cfg (l : list json) : forall h ps, let q := pc_load_discs f cfg l h ps in grows h q.2 /\
  forall ps', q.1 = Ok ps' -> (forall a, Some a ∈ ps -> is_Some (hp_cells h !! a)) -> forall a, Some a ∈ ps' -> is_Some (hp_cells q.2 !! a).
Proof.
  induction l as [|j l IH]; intros h ps; cbv zeta; cbn [pc_load_discs].
  - split; [apply grows_refl|]. intros ps' E H. injection E as <-. exact H.
  - destruct (disc_of_json f (merge_patch j cfg)) as [d| | |]; try (split; [apply grows_refl|discriminate]).
    cbn [hp_new]. pose proof (new_grows h d) as G. cbn [hp_new snd] in G.
    set (h1 := Heap _ _) in *. destruct (IH h1 (ps ++ [Some (hp_next h)])) as [G' V]. split; [exact (grows_trans _ _ _ G G')|].
    intros ps' E H. apply (V ps' E). intros a Ha. apply elem_of_app in Ha as [Ha|Ha].
    + apply (proj1 G), H, Ha.
    + apply elem_of_list_singleton in Ha. injection Ha as ->. subst h1. cbn. rewrite lookup_insert. eauto.
Qed.
Lemma of_json_grows f o h : grows h (pc_of_json f o h).2 /\
  forall c, (pc_of_json f o h).1 = Ok c -> forall a, Some a ∈ pc_ptrs c -> is_Some (hp_cells (pc_of_json f o h).2 !! a).
Proof.
  unfold pc_of_json. match goal with |- context [match ?e with Ok _ => _ | _ => _ end] => destruct e as [[p dc]| | |] end;
    try (split; [apply grows_refl|discriminate]).
  cbv zeta. set (cfg := jobject _). pose proof (load_grows f cfg (jvalues dc) h []) as [G V]. clearbody cfg.
  destruct (pc_load_discs f cfg (jvalues dc) h []) as [r h1]. cbn [fst snd] in *. split; [exact G|].
  destruct r as [ps| | |]; cbn [rbind]; try discriminate. intros c E. injection E as <-. cbn [pc_ptrs]. apply (V ps eq_refl).
  intros a Ha. apply elem_of_nil in Ha as [].
Qed.

Definition valid (s : pstate) : Prop := forall x c a, s.2 !! x = Some c -> Some a ∈ pc_ptrs c -> is_Some (hp_cells s.1 !! a).
Lemma valid_start : valid (Heap ∅ 0, ∅).
Proof. intros x c a E. cbn in E. rewrite lookup_empty in E. discriminate. Qed.
Lemma valid_put h m h' x c : valid (h, m) -> grows h h' -> (forall a, Some a ∈ pc_ptrs c -> is_Some (hp_cells h' !! a)) -> valid (h', <[x := c]> m).
Proof.
  intros V G P y c' a E Ha. cbn in E, P |- *. apply lookup_insert_Some in E as [[_ <-]|[_ E]]; [apply P, Ha|]. apply (proj1 G), (V y c' a E Ha).
Qed.
Lemma valid_del h m x : valid (h, m) -> valid (h, delete x m).
Proof. intros V y c a E Ha. cbn in E. apply lookup_delete_Some in E as [_ E]. exact (V y c a E Ha). Qed.
Definition no_load (o : cop) : Prop := forall x f j, o <> PLoad x f j.
Lemma step_safe o s : valid s -> valid (snd (pstep o s)) /\ grows s.1 (snd (pstep o s)).1 /\ (no_load o -> hp_next (snd (pstep o s)).1 <= Nat.b2n (is_train o) + hp_next s.1)%nat.
Proof.
  intros V. assert (Same : valid s /\ grows s.1 s.1 /\ (no_load o -> hp_next s.1 <= Nat.b2n (is_train o) + hp_next s.1)%nat) by (split; [exact V|]; split; [apply grows_refl|lia]).
  destruct s as [h m]. cbn [fst snd] in *.
  destruct o as [x es az ms th li co iz ba|x|x f j|x lhs dr im|x im|x iter|x|x y|x y|x]; cbn [pstep]; unfold p_at; cbn [snd fst].
  - split; [|split; [apply grows_refl|lia]]. apply (valid_put h); [exact V|apply grows_refl|]. intros a Ha. cbn in Ha. apply elem_of_nil in Ha as [].
  - split; [|split; [apply grows_refl|lia]]. apply (valid_put h); [exact V|apply grows_refl|]. intros a Ha. cbn in Ha. apply elem_of_nil in Ha as [].
  - pose proof (of_json_grows f j h) as [G P]. destruct (pc_of_json f j h) as [r h1]. cbn [fst snd] in G, P.
    assert (V1 : valid (h1, m)). { intros y c a E Ha. cbn in E |- *. apply (proj1 G), (V y c a E Ha). }
    destruct r as [c| | |]; cbn [fst snd].
    1: split; [apply (valid_put h); [exact V|exact G|exact (P c eq_refl)]|].
    2,3,4: split; [exact V1|].
    all: split; [exact G|]; intros N; exfalso; exact (N x f j eq_refl).
  - destruct (m !! x) as [c|] eqn:Ex; [|exact Same].
    pose proof (pc_train_extends lhs dr im h c) as X. cbv zeta in X. destruct (pc_train lhs dr im (h, c)) as [r [h1 c1]]. cbn [fst snd] in *.
    destruct X as (G & N & q & E & P). split; [|split; [exact G|intros _; exact N]].
    apply (valid_put h); [exact V|exact G|]. intros a Ha. rewrite E in Ha. apply elem_of_app in Ha as [Ha|Ha]; [|exact (P a Ha)].
    apply (proj1 G). exact (V x c a Ex Ha).
  - destruct (m !! x) as [c|] eqn:Ex; exact Same.
  - destruct (m !! x) as [c|] eqn:Ex; exact Same.
  - destruct (m !! x) as [c|] eqn:Ex; exact Same.
  - destruct (m !! x) as [c|] eqn:Ex; [|exact Same]. cbn [fst snd]. split; [|split; [apply grows_refl|lia]].
    apply (valid_put h); [apply valid_del, V|apply grows_refl|]. intros a Ha. exact (V x c a Ex Ha).
  - destruct (m !! x) as [c|] eqn:Ex; [|exact Same]. cbn [fst snd]. split; [|split; [apply grows_refl|lia]].
    apply (valid_put h); [exact V|apply grows_refl|]. intros a Ha. exact (V x c a Ex Ha).
  - destruct (m !! x) as [c|] eqn:Ex; [|exact Same]. cbn [fst snd]. split; [|split; [apply grows_refl|lia]]. apply valid_del, V.
Qed.
Lemma len_filter o (l : list cop) : length (filter is_train (o :: l)) = (Nat.b2n (is_train o) + length (filter is_train l))%nat.
Proof. rewrite filter_cons. destruct (is_train o); reflexivity. Qed.
Lemma trace_safe (l : list cop) : forall s, valid s -> valid (snd (trace pstep l s)) /\ grows s.1 (snd (trace pstep l s)).1 /\
  (Forall no_load l -> hp_next (snd (trace pstep l s)).1 <= length (filter is_train l) + hp_next s.1)%nat.
Proof.
  induction l as [|o l IH]; intros s V; cbn [trace].
  - split; [exact V|]. split; [apply grows_refl|]. cbn. lia.
  - destruct (step_safe o s V) as (V1 & G1 & N1). destruct (pstep o s) as [r s1]. cbn [fst snd] in *. destruct (IH s1 V1) as (V2 & G2 & N2).
    assert (D : valid s1 /\ grows s.1 s1.1 /\ (Forall no_load (o :: l) -> hp_next s1.1 <= length (filter is_train (o :: l)) + hp_next s.1)%nat).
    { split; [exact V1|]. split; [exact G1|]. intros F. apply Forall_cons in F as [F _]. specialize (N1 F). rewrite len_filter. lia. }
    destruct r; try exact D.
    all: destruct (trace pstep l s1) as [rs s2]; cbn [fst snd] in *; split; [exact V2|]; split; [exact (grows_trans _ _ _ G1 G2)|];
      intros F; apply Forall_cons in F as [F F']; specialize (N1 F); specialize (N2 F'); rewrite len_filter; lia.
Qed.

Lemma rmapM_prefix {A B} (g : A -> res B) (l m : list A) : forall v, rmapM g (l ++ m) = Ok v -> rmapM g l = Ok (take (length l) v).
Proof.
  induction l as [|x l IH]; intros v E; cbn [app rmapM length] in *; [reflexivity|]. destruct (g x) as [y| | |]; cbn [rbind] in *; try discriminate.
  destruct (rmapM g (l ++ m)) as [ys| | |] eqn:Em; cbn [rbind] in *; try discriminate. injection E as <-. rewrite (IH ys eq_refl). reflexivity.
Qed.
Lemma trace_trains x y (l : list cop) : forall s c c', x <> y -> s.2 !! y = Some c -> s.2 !! x = Some c' -> pc_ptrs c `prefix_of` pc_ptrs c' ->
  Forall (fun o => exists lhs_first dr im, o = PTrain x lhs_first dr im) l ->
  exists c'', (snd (trace pstep l s)).2 !! y = Some c /\ (snd (trace pstep l s)).2 !! x = Some c'' /\ pc_ptrs c `prefix_of` pc_ptrs c''.
Proof.
  induction l as [|o l IH]; intros s c c' Hxy Ey Ex P F; cbn [trace]; [exists c'; split; [exact Ey|split; assumption]|].
  apply Forall_cons in F as [(lhs & dr & im & ->) F]. destruct s as [h m]. cbn [fst snd] in *. cbn [pstep]. unfold p_at. cbn [snd]. rewrite Ex.
  pose proof (pc_train_extends lhs dr im h c') as X. cbv zeta in X. destruct (pc_train lhs dr im (h, c')) as [r [h1 c1]]. cbn [fst snd] in *.
  destruct X as (G & N & q & E & _). assert (P1 : pc_ptrs c `prefix_of` pc_ptrs c1) by (rewrite E; apply prefix_app_r, P).
  set (s1 := (h1, <[x:=c1]> m) : pstate). assert (Ey1 : s1.2 !! y = Some c) by (subst s1; cbn; rewrite lookup_insert_ne by congruence; exact Ey).
  assert (Ex1 : s1.2 !! x = Some c1) by (subst s1; cbn; rewrite lookup_insert; reflexivity).
  specialize (IH s1 c c1 Hxy Ey1 Ex1 P1 F).
  destruct r; cbn [rbind].
  1,2: destruct (trace pstep l s1) as [rs s2]; exact IH.
  all: exists c1; split; [exact Ey1|split; [exact Ex1|exact P1]].
Qed.
Lemma copy_shares x y l s c im votes : x <> y -> s.2 !! x = Some c -> Forall (fun o => exists lhs_first dr im, o = PTrain x lhs_first dr im) l ->
  let s' := snd (trace pstep (PCopy x y :: l) s) in
  fst (pstep (PClassify x im) s') = Ok (OLists votes) ->
  fst (pstep (PClassify y im) s') = Ok (OLists (take (length (pc_ptrs c)) votes)).
Proof.
  intros Hxy Ex F. cbv zeta. cbn [trace]. destruct s as [h m]. cbn [fst snd] in *. cbn [pstep]. unfold p_at. cbn [snd]. rewrite Ex.
  set (s1 := (h, <[y:=c]> m) : pstate).
  destruct (trace_trains x y l s1 c c Hxy) as (c'' & Ey2 & Ex2 & P).
  - subst s1. cbn. apply lookup_insert.
  - subst s1. cbn. rewrite lookup_insert_ne by congruence. exact Ex.
  - reflexivity.
  - exact F.
  - destruct (trace pstep l s1) as [rs [h2 m2]]. cbn [fst snd pstep] in *. unfold p_at. cbn [snd]. rewrite Ey2, Ex2. cbn [fst]. unfold pc_classify, pc_reads.
    destruct P as [q ->]. intros E. match type of E with (rbind ?e _) = _ => destruct e as [v| | |] eqn:Ev end; cbn [rbind] in E; try discriminate.
    injection E as <-. rewrite (rmapM_prefix _ _ _ _ Ev). reflexivity.
Qed.
Lemma size_next h : heap_ok h -> (size (hp_cells h) <= hp_next h)%nat.
Proof.
  intros Hok. rewrite <- size_dom. transitivity (size (set_seq 0 (hp_next h) : gset nat)).
  - apply subseteq_size. intros a Ha. apply elem_of_dom in Ha as [d E]. apply Hok in E. apply elem_of_set_seq. lia.
  - rewrite <- (list_to_set_seq (C := gset nat)). rewrite size_list_to_set by apply NoDup_seq. rewrite seq_length. lia.
Qed.
Lemma leak_bound (l : list cop) : Forall no_load l -> (size (hp_cells (snd (trace pstep l (Heap ∅ 0, ∅))).1) <= length (filter is_train l))%nat.
Proof.
  intros F. destruct (trace_safe l _ valid_start) as (_ & (_ & _ & Hok) & N). specialize (N F). cbn [fst hp_next] in N.
  etransitivity; [apply size_next, Hok|]; [|lia]. intros a d E. cbn in E. rewrite lookup_empty in E. discriminate.
Qed.
