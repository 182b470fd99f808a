(** Property theorems C179: a Discriminator that lives through failing calls, saved, loaded and used again. *)
From Verif Require Import Prelude Bytes Base64 Bleaching Utils BinInput Json Fs RamData Ram Disc DataSet Wisard.
From Verif Require Import SpecBin SpecDisc SpecBleach SpecWisard SpecValues SpecSaved SpecUtf8 Utf8Proofs TextProofs BinProofs UtilsProofs DiscCtorProofs CtorFacts JsonNF RamProofs DiscProofs DiscFacts WisardFacts JsonProofs JsonFacts WisardJson WisardSaved SizesClus.
From Verif Require Import PropsWisard PropsDefined PropsDefinedSaved PropsSavedExact PropsSessions PropsDisc.

(** The image handed over by a call. *)
Definition dop_image (o : dop) : image := match o with Train x | Untrain x => x end.
(** Some options, as a Wisard holds them: only ignoreZero and base matter below. *)
Definition setup_of (iz : bool) (base : Z) : wisard := Wisard 2 false false ∅ [] iz false base false false false false 1 ∅.
Definition live (N : Z) (iz : bool) (base : Z) (d : disc) : Prop := sound N d /\ kept (setup_of iz base) d /\ pfx (d_rams d) /\ d_rams d <> [].
Lemma op_pfx d o : pfx (d_rams d) -> pfx (d_rams (snd (dstep d o))).
Proof.
  intros H. destruct o as [x|x]; cbn [dstep]; unfold disc_train, disc_untrain; destruct (checkEntrySize _ _); try exact H.
  - destruct (int_of _); try exact H. pose proof (train_pfx x (d_rams d) H) as K. destruct (rams_update _ _) as [o rs]. exact K.
  - destruct (int_of _); try exact H. pose proof (untrain_pfx x (d_rams d) H) as K. destruct (rams_update _ _) as [o rs]. exact (proj1 K).
Qed.
Lemma op_rams d o : d_rams d <> [] -> d_rams (snd (dstep d o)) <> [].
Proof.
  intros H. destruct o as [x|x]; cbn [dstep]; unfold disc_train, disc_untrain; destruct (checkEntrySize _ _); try exact H; destruct (int_of _); try exact H.
  - pose proof (update_nil (fun r => ram_train r x) (d_rams d)) as K. destruct (rams_update _ _) as [o rs]. cbn in *. tauto.
  - pose proof (update_nil (fun r => ram_untrain r x) (d_rams d)) as K. destruct (rams_update _ _) as [o rs]. cbn in *. tauto.
Qed.
Lemma disc_train_fills d x : d_rams d <> [] -> fst (disc_train d x) = Ok tt -> filled (snd (disc_train d x)).
Proof.
  intros H. pose proof (op_rams d (Train x) H) as H2. cbn [dstep] in H2. revert H2. unfold disc_train. destruct (checkEntrySize _ _); try discriminate. destruct (int_of _); try discriminate.
  pose proof (update_ok (fun r => r_positions r <> ∅) (fun r => ram_train r x)) as K. specialize (fun Q => K Q (d_rams d)).
  assert (Q : forall r, fst (ram_train r x) = Ok tt -> r_positions (snd (ram_train r x)) <> ∅).
  { intros r. unfold ram_train. destruct (getIndex r x) as [i| | |]; try discriminate. destruct (r_positions r !! i) as [v|]; [destruct (int_of (v + 1)); try discriminate|]; intros _; apply put_nonempty. }
  specialize (K Q). destruct (rams_update _ _) as [o rs]. cbn [fst snd] in *. intros H2 E. split; [exact H2|]. cbn. apply K. exact E.
Qed.
Lemma op_live N iz base d o : readable (dop_image o) -> 0 <= N < INT_MAX -> live N iz base d -> served (fst (dstep d o)) /\ live (N + 1) iz base (snd (dstep d o)) /\ (filled d -> filled (snd (dstep d o))).
Proof.
  intros Hx HN (Hs & Hk & Hp & Hne). pose proof (op_pfx d o Hp) as P. pose proof (op_rams d o Hne) as R.
  pose proof (fun x => proj2 (op_filled d x)) as F.
  destruct o as [x|x]; cbn [dop_image dstep] in *; destruct (disc_op_sound N d x Hx HN Hs) as [[A1 A2] [B1 B2]]; destruct (op_kept _ d x Hk) as [K1 K2]; specialize (F x).
  - split; [exact A1|]. split; [|tauto]. split; [exact A2|]. split; [exact K1|]. split; assumption.
  - split; [exact B1|]. split; [|tauto]. split; [exact B2|]. split; [exact K2|]. split; assumption.
Qed.
Lemma ops_live iz base : forall h N d, Forall (fun o => readable (dop_image o)) h -> 0 <= N -> N + len h <= INT_MAX -> live N iz base d ->
  let '(os, d') := outcomes dstep d h in
  Forall served os /\ live (N + len h) iz base d' /\ (filled d -> filled d') /\ ((exists x, (Train x, Ok tt) ∈ zip h os) -> filled d').
Proof.
  induction h as [|o h IH]; intros N d Hh HN HM Hl.
  - cbn. split; [constructor|]. split; [change (len (@nil dop)) with 0; replace (N + 0) with N by lia; exact Hl|]. split; [auto|]. intros [x Hx]. inversion Hx.
  - apply Forall_cons in Hh as [Ho Hh]. rewrite len_cons in HM. pose proof (len_nonneg h). destruct (op_live N iz base d o Ho ltac:(lia) Hl) as (S1 & L1 & F1).
    assert (FT : forall x, o = Train x -> fst (dstep d o) = Ok tt -> filled (snd (dstep d o))) by (intros x -> E; apply disc_train_fills; [exact (proj2 (proj2 (proj2 Hl)))|exact E]).
    cbn [outcomes]. destruct (dstep d o) as [r d1]. cbn [fst snd] in *. specialize (IH (N + 1) d1 Hh ltac:(lia) ltac:(lia) L1). rewrite len_cons. replace (N + (1 + len h)) with (N + 1 + len h) by lia.
    destruct r as [[]|e| |]; try contradiction; destruct (outcomes dstep d1 h) as [os d2]; destruct IH as (I1 & I2 & I3 & I4); cbn [zip zip_with]; (split; [apply Forall_cons; split; [exact I|exact I1]|]; split; [exact I2|]; split; [auto|]).
    + intros [x Hx]. apply elem_of_cons in Hx as [E|Hx]; [injection E as <-; apply I3, (FT x); reflexivity|apply I4; exists x; exact Hx].
    + intros [x Hx]. apply elem_of_cons in Hx as [E|Hx]; [discriminate E|apply I4; exists x; exact Hx].
Qed.
Lemma constructed_live d0 : constructed d0 -> wired_inside d0 -> exists iz base, is_int base /\ live 0 iz base d0.
Proof.
  intros Hc Hw. destruct (constructed_uniform d0 Hc) as (iz & base & Hb & He & Hne & Hu). apply constructed_fresh in Hc as [Hc Hf]. exists iz, base. split; [exact Hb|].
  assert (Hpf : Forall (fun r => r_positions r = ∅) (d_rams d0)) by (eapply Forall_impl; [exact Hf|]; intros r [_ Hr]; exact Hr).
  split; [|split; [|split; [apply fresh_pfx, Hpf|exact Hne]]].
  - split; [exact Hw|]. split; [lia|]. eapply Forall_impl; [exact Hf|]. intros r [[H2 _] Hr]. split; [|exact H2]. unfold weight. rewrite Hr, map_to_list_empty. reflexivity.
  - split; [exact He|]. rewrite Forall_forall in Hf, Hu |- *. intros r Hr. destruct (Hf r Hr) as [[H2 Hwd] Hr0]. destruct (Hu r Hr) as [U1 U2]. unfold kept_ram. cbn. rewrite <- U2. split; [exact U1|]. split; [reflexivity|]. split; [exact H2|]. split; [exact Hwd|].
    intros a v E. rewrite Hr0, lookup_empty in E. discriminate.
Qed.
Lemma live_saved iter rnd f path N iz base d : good_iter iter -> is_int base -> 0 <= N <= INT_MAX -> live N iz base d -> saved_size d <= INT_MAX + 1 ->
  exists j, disc_json iter rnd f d false path = (Ok j, f) /\
    (Forall (fun r => r_positions r <> ∅) (d_rams d) -> forall f', disc_of_json f' j = Ok d) /\
    ((exists r, r ∈ d_rams d /\ r_positions r = ∅) -> forall f', disc_of_json f' j = Throw EOutOfRange).
Proof.
  intros Hi Hb HN (Hs & Hk & Hp & Hne) Hz. pose proof (texts_size iter d Hi Hne) as Ht.
  assert (Hv : match d_rams d with [] => False | r :: _ => r_ignoreZero r = iz /\ r_base r = base end).
  { destruct Hk as [_ Hk]. destruct (d_rams d) as [|r rs]; [congruence|]. apply Forall_cons in Hk as [(K1 & K2 & _) _]. auto. }
  assert (He : is_int (d_entrySize d)) by apply Hk. assert (Hcn : is_int (d_count d)) by (destruct Hs as (_ & Hc & _); unfold is_int, INT_MIN, INT_MAX in *; lia).
  pose proof (sound_loose (setup_of iz base) N d Hb HN Hk Hs) as HL. cbn [setup_of w_ignoreZero w_base] in HL.
  exists (json_value d (ramsdata_mem iter (d_rams d) [])). split; [|split].
  - rewrite disc_json_nf; unfold getRAMsData; cbn [fst snd]; [reflexivity|]. destruct (mem_either iter (d_rams d) Hi Hp) as [-> | ->]; [reflexivity|apply texts_utf8].
  - intros Hf f'. rewrite (disc_of_value f' d _ iz base He Hcn Hv).
    assert (Hst : Forall (storable_ram iz base) (d_rams d)) by (apply Forall_forall; intros x Hx; apply loose_storable; rewrite Forall_forall in HL, Hf; auto).
    rewrite mem_join by (eapply Forall_impl; [exact (texts_seg iter _ _ _ Hi Hst)|]; intros s [_ Hsg]; exact Hsg).
    unfold disc_mapping. rewrite (setRAMs_mem iter) by (auto; lia). cbn [rbind]. rewrite disc_eta. reflexivity.
  - intros Hbad f'. rewrite (disc_of_value f' d _ iz base He Hcn Hv). unfold disc_mapping. rewrite (setRAMs_broken iter f' iz base (d_rams d) Hi HL Hp); [reflexivity|lia|right; exact Hbad].
Qed.

(** C179: whatever calls fail, the discriminator is saved; the text is read back as the same discriminator
    when every RAM has learned something - in particular once a training call was answered - and is
    refused with std::out_of_range otherwise. *)
Theorem C179_saved_exactly : forall iter rnd f path d0 h,
  good_iter iter -> constructed d0 -> wired_inside d0 -> Forall (fun o => readable (dop_image o)) h -> len h <= INT_MAX ->
  let '(os, d) := outcomes dstep d0 h in
  saved_size d <= INT_MAX + 1 ->
  exists j, disc_json iter rnd f d false path = (Ok j, f) /\
    (Forall (fun r => r_positions r <> ∅) (d_rams d) -> forall f', disc_of_json f' j = Ok d) /\
    ((exists r, r ∈ d_rams d /\ r_positions r = ∅) -> forall f', disc_of_json f' j = Throw EOutOfRange) /\
    ((exists x, (Train x, Ok tt) ∈ zip h os) -> forall f', disc_of_json f' j = Ok d).
Proof.
  intros iter rnd f path d0 h Hi Hc Hw Hh HM. destruct (constructed_live d0 Hc Hw) as (iz & base & Hb & Hl). pose proof (ops_live iz base h 0 d0 Hh ltac:(lia) ltac:(lia) Hl) as H.
  destruct (outcomes dstep d0 h) as [os d]. destruct H as (_ & Hd & _ & Ht). intros Hz. pose proof (len_nonneg h).
  destruct (live_saved iter rnd f path (0 + len h) iz base d Hi Hb ltac:(lia) Hd Hz) as (j & E & A & B). exists j. split; [exact E|]. split; [exact A|]. split; [exact B|]. intros K. apply A. exact (proj2 (Ht K)).
Qed.
Print Assumptions C179_saved_exactly.

(** Sessions of a discriminator: the calls of each, going on after exceptions, then save and load. *)
Fixpoint disc_sessions (iter : iteration) (rnd : str) (f : fs) (path : str) (d : disc) (hs : list (list dop)) : res (list (res unit) * disc) :=
  match hs with
  | [] => Ok ([], d)
  | h :: hs => let '(os, v) := outcomes dstep d h in
      let* j := fst (disc_json iter rnd f v false path) in let* d' := disc_of_json f j in
      let* p := disc_sessions iter rnd f path d' hs in Ok (os ++ fst p, snd p)
  end.
(** C179: sessions that end with a save and begin with a load do exactly what one uninterrupted program
    does, outcomes included, if a training call was answered before the first save. *)
Theorem C179_sessions : forall iter rnd f path d0 h hs,
  good_iter iter -> constructed d0 -> wired_inside d0 -> Forall (fun o => readable (dop_image o)) (h ++ List.concat hs) -> len (h ++ List.concat hs) <= INT_MAX ->
  (exists x, (Train x, Ok tt) ∈ zip h (fst (outcomes dstep d0 h))) ->
  (forall before after, hs = before ++ after -> saved_size (snd (outcomes dstep d0 (h ++ List.concat before))) <= INT_MAX + 1) ->
  disc_sessions iter rnd f path d0 (h :: hs) = Ok (outcomes dstep d0 (h ++ List.concat hs)).
Proof.
  intros iter rnd f path d0 h hs Hi Hc Hw Hh HM Ht Hz. destruct (constructed_live d0 Hc Hw) as (iz & base & Hb & Hl0).
  assert (Hgo : forall hs h N d, Forall (fun o => readable (dop_image o)) (h ++ List.concat hs) -> 0 <= N -> N + len (h ++ List.concat hs) <= INT_MAX -> live N iz base d ->
    (filled d \/ exists x, (Train x, Ok tt) ∈ zip h (fst (outcomes dstep d h))) ->
    (forall before after, hs = before ++ after -> saved_size (snd (outcomes dstep d (h ++ List.concat before))) <= INT_MAX + 1) ->
    disc_sessions iter rnd f path d (h :: hs) = Ok (outcomes dstep d (h ++ List.concat hs))).
  { clear h hs Hh HM Ht Hz. induction hs as [|h2 hs IH]; intros h N d Hh HN HM Hl Ht Hz; apply Forall_app in Hh as [Hh1 Hh2]; rewrite len_app in HM; pose proof (len_nonneg h);
      match type of HM with _ + (_ + ?q) <= _ => assert (0 <= q) by apply len_nonneg end; assert (HNh : N + len h <= INT_MAX) by lia;
      pose proof (ops_live iz base h N d Hh1 HN ltac:(lia) Hl) as H1.
    - specialize (Hz [] [] eq_refl). cbn [List.concat] in *. rewrite app_nil_r in *. cbn [disc_sessions]. destruct (outcomes dstep d h) as [os v]. destruct H1 as (_ & H2 & H3 & H4). cbn [fst snd] in *.
      destruct (live_saved iter rnd f path (N + len h) iz base v Hi Hb ltac:(lia) H2 Hz) as (j & E & A & _). rewrite E. cbn [fst rbind]. rewrite A by (destruct Ht as [Ht|Ht]; [apply H3, Ht|apply H4, Ht]). cbn [rbind fst snd]. rewrite app_nil_r. reflexivity.
    - pose proof (Hz [] (h2 :: hs) eq_refl) as Hz0. cbn [List.concat] in Hz0. rewrite app_nil_r in Hz0.
      assert (Hsv : Forall served (fst (outcomes dstep d h))) by (destruct (outcomes dstep d h); apply H1).
      specialize (IH h2 (N + len h) (snd (outcomes dstep d h)) Hh2 ltac:(lia)). cbn [List.concat] in HM. specialize (IH ltac:(cbn [List.concat] in *; lia)).
      rewrite (outcomes_app dstep h (List.concat (h2 :: hs)) d Hsv). 
      assert (Hz' : forall before after, hs = before ++ after -> saved_size (snd (outcomes dstep (snd (outcomes dstep d h)) (h2 ++ List.concat before))) <= INT_MAX + 1).
      { intros before after E. specialize (Hz (h2 :: before) after ltac:(rewrite E; reflexivity)). rewrite (outcomes_app dstep h _ d Hsv) in Hz. exact Hz. }
      change (disc_sessions iter rnd f path d (h :: h2 :: hs)) with (let '(os, v) := outcomes dstep d h in
        let* j := fst (disc_json iter rnd f v false path) in let* d' := disc_of_json f j in
        let* p := disc_sessions iter rnd f path d' (h2 :: hs) in Ok (os ++ fst p, snd p)).
      destruct (outcomes dstep d h) as [os v]. cbn [fst snd] in *. destruct H1 as (_ & H2 & H3 & H4). assert (Hf : filled v) by (destruct Ht as [Ht|Ht]; [apply H3, Ht|apply H4, Ht]).
      destruct (live_saved iter rnd f path (N + len h) iz base v Hi Hb ltac:(lia) H2 Hz0) as (j & E & A & _). rewrite E. cbn [fst rbind]. rewrite A by exact (proj2 Hf). cbn [rbind].
      rewrite IH; [reflexivity|exact H2|left; exact Hf|exact Hz']. }
  apply (Hgo hs h 0 d0); auto; lia.
Qed.
Print Assumptions C179_sessions.

(** The hypotheses are met by a discriminator whose first call is rejected half-way: its first RAM has
    learned the image, its second has not, and it cannot be loaded; after an answered call it can. *)
Definition half_bad := vec_image [2; 0; 1; 9; 0].
Definition first_s : list dop := [Train half_bad; Untrain (vec_image [1]); Train img1].
Definition later_s : list (list dop) := [[Untrain half_bad; Train img2]; [Train half_bad; Train img0]].
Lemma prefixes2 {A} (a b : A) before after : [a; b] = before ++ after -> before = [] \/ before = [a] \/ before = [a; b].
Proof. intros E. destruct before as [|x [|y [|z t]]]; cbn in E; [auto|injection E as <- _; auto|injection E as <- <- _; auto|discriminate]. Qed.
Example C179_witness : constructed demo /\ wired_inside demo /\ Forall (fun o => readable (dop_image o)) (first_s ++ List.concat later_s) /\ len (first_s ++ List.concat later_s) <= INT_MAX /\
  (exists x, (Train x, Ok tt) ∈ zip first_s (fst (outcomes dstep demo first_s))) /\
  (forall before after, later_s = before ++ after -> saved_size (snd (outcomes dstep demo (first_s ++ List.concat before))) <= INT_MAX + 1) /\
  fst (outcomes dstep demo (first_s ++ List.concat later_s)) = [Throw pos_exn; Throw entry_exn; Ok tt; Throw pos_exn; Ok tt; Throw pos_exn; Ok tt] /\
  (fun r => size (r_positions r)) <$> d_rams (snd (outcomes dstep demo [Train half_bad])) = [1; 0]%nat.
Proof.
  split; [exact demo_constructed|]. split; [unfold wired_inside; vm_compute; repeat constructor; discriminate|].
  split.
  { apply (List.Forall_impl (P := fun o => exists v, dop_image o = vec_image v /\ (length v <= 5)%nat)).
    - intros o (v & -> & Hv). apply list_readable. unfold len, INT_MAX. lia.
    - unfold first_s, later_s. cbn [app List.concat]. repeat (apply Forall_cons; split; [eexists; split; [cbn [dop_image]; reflexivity|cbn [length]; lia]|]). constructor. }
  split; [vm_compute; discriminate|]. split; [exists img1; assert (fst (outcomes dstep demo first_s) = [Throw pos_exn; Throw entry_exn; Ok tt]) as -> by (vm_compute; reflexivity); unfold first_s; cbn [zip zip_with]; right; right; left|]. split; [|split; vm_compute; reflexivity].
  assert (A : saved_size (snd (outcomes dstep demo (first_s ++ List.concat []))) <= INT_MAX + 1) by (vm_compute; discriminate).
  assert (B : saved_size (snd (outcomes dstep demo (first_s ++ List.concat [[Untrain half_bad; Train img2]]))) <= INT_MAX + 1) by (vm_compute; discriminate).
  assert (C : saved_size (snd (outcomes dstep demo (first_s ++ List.concat later_s))) <= INT_MAX + 1) by (vm_compute; discriminate).
  intros before after E. destruct (prefixes2 _ _ before after E) as [-> | [-> | ->]]; [exact A|exact B|exact C].
Qed.
