(** Property theorems C182: sessions of a Wisard that is kept in files. *)
From Verif Require Import Prelude Bytes Bleaching BleachProofs Utils BinInput Json Fs RamData Ram Disc DataSet Wisard.
From Verif Require Import SpecBin SpecDisc SpecBleach SpecWisard SpecValues SpecSaved SpecUtf8 Utf8Proofs CtorFacts WisardFacts WisardJson WisardSaved SizesClus.
From Verif Require Import PropsWisard PropsDefined PropsDefinedSaved PropsSessions PropsDiscHuge.

(** The file json(huge) writes for label l, with a random part for each label. *)
Definition label_file (path : str) (rnd : str -> str) (l : str) : str := path ++ l ++ lit "__" ++ rnd l ++ lit ".wdpkg".
(** Sessions: the calls of each, going on after exceptions, then json(huge=True) and a new Wisard from the
    text; the files are threaded through. *)
Fixpoint file_sessions (lhs : bool) (iter : iteration) (path : str) (f : fs) (w : wisard) (ss : list (list wcall * (str -> str))) : res ((list (res unit) * wisard) * fs) :=
  match ss with
  | [] => Ok (([], w), f)
  | (cs, rnd) :: ss => let '(os, v) := outcomes (wcall_run lhs) w cs in
      let '(rj, f1) := wisard_json iter rnd f v true path in
      let* j := rj in let* w' := wisard_of_json f1 j in
      let* p := file_sessions lhs iter path f1 w' ss in Ok ((os ++ fst (fst p), snd (fst p)), snd p)
  end.
(** Files outside [names] are the same and the same files can be written. *)
Definition differs_at (names : str -> Prop) (f f' : fs) : Prop := (forall n, fs_writable f' n = fs_writable f n) /\ forall n, ~ names n -> fs_read f' n = fs_read f n.
Lemma class_fs_differs iter rnd path : forall l f, differs_at (fun n => exists k, k ∈ fst <$> l /\ n = label_file path rnd k) f (foldl (class_fs iter rnd true path) f l).
Proof.
  induction l as [|[k d] l IH]; intros f; [split; auto|]. cbn [foldl]. destruct (IH (class_fs iter rnd true path f (k, d))) as [A B]. 
  assert (exists c, class_fs iter rnd true path f (k, d) = fs_append f (label_file path rnd k) c) as (c & Ec) by (eexists; reflexivity).
  rewrite Ec in *. split.
  - intros n. rewrite A. apply append_writable.
  - intros n Hn. rewrite B; [apply append_other|]; [intros <-; apply Hn; exists k; split; [left|reflexivity]|]. intros (k' & Hk & ->). apply Hn. exists k'. split; [right; exact Hk|reflexivity].
Qed.
Lemma label_file_inj path rnd rnd2 k l : length (rnd k) = 10%nat -> length (rnd2 l) = 10%nat -> label_file path rnd k = label_file path rnd2 l -> k = l /\ rnd k = rnd2 l.
Proof.
  unfold label_file. intros H1 H2 E. apply app_inv_head in E. rewrite !app_assoc in E. apply app_inv_tail in E. apply app_inj_2 in E as [E ->]; [|congruence]. apply app_inv_tail in E. auto.
Qed.
(** One save after any calls. *)
Lemma file_step lhs iter rnd f path w0 cs : good_iter iter -> w_discriminators w0 = ∅ -> w_addressSize w0 <> 0 -> SpecSaved.int_options w0 -> some_rams w0 -> Forall (safe_call w0) cs -> zsum (handed <$> cs) < INT_MAX - 1 ->
  let '(os, w) := outcomes (wcall_run lhs) w0 cs in
  all_taught cs os w -> (forall k, length (rnd k) = 10%nat) -> (forall l, is_Some (w_discriminators w !! l) -> free_name f (label_file path rnd l)) ->
  exists j f1, wisard_json iter rnd f w true path = (Ok j, f1) /\ wisard_of_json f1 j = Ok (without_mapping w) /\
    differs_at (fun n => exists k, is_Some (w_discriminators w !! k) /\ n = label_file path rnd k) f f1.
Proof.
  intros Hi H0 Ha Ho Hr Hc HM. pose proof (after_calls lhs iter w0 cs Hi H0 Ha Ho Hc HM) as H.
  pose proof (outcomes_inv lhs w0 Hr cs (fun _ => False) w0 eq_refl Hc) as K. specialize (K ltac:(split; [intros l d; rewrite H0, lookup_empty; discriminate|intros l []])).
  destruct (outcomes (wcall_run lhs) w0 cs) as [os w]. cbn [fst snd] in *. destruct K as [_ K]. intros Hall H10 Hfree.
  destruct H as (Hsm & Hs & Hio & Hsv & Hu).
  { intros l d E. destruct (Hall l d E) as (H1 & H2 & c & Hc' & Ht). split; [exact H1|]. destruct (K l ltac:(right; eauto)) as (d' & E' & Hf1 & Hf2). rewrite E in E'. injection E' as <-. auto. }
  destruct (wisard_roundtrip_file iter rnd f w path Hi Hio Hsv H10) as (j & f1 & E1 & E2).
  { intros l Hl. split; [exact (Hu l Hl)|]. destruct (Hfree l Hl) as (A1 & A2 & A3 & A4). cbv zeta. apply utf8_ok_iff in A1. auto. }
  exists j, f1. split; [exact E1|]. split; [exact E2|].
  rewrite wisard_json_nf in E1.
  - injection E1 as _ <-. destruct (class_fs_differs iter rnd path (sorted_items (w_discriminators w)) f) as [A B]. split; [exact A|]. intros n Hn. apply B. intros (k & Hk & ->). apply Hn. exists k. split; [|reflexivity].
    apply elem_of_list_fmap in Hk as ([k' d] & -> & Hkd). apply sorted_items_elem in Hkd. eauto.
  - intros l d E. split; [apply Hu; eauto|]. unfold class_data, class_file. destruct (Hfree l ltac:(eauto)) as (A1 & _). apply utf8_ok_iff in A1. exact A1.
Qed.

(** C182: sessions that end with json(huge=True) and begin with Wisard(text) do exactly what one
    uninterrupted program does, whatever calls fail in them, if at each save every label was named by an
    answered training call and its file name is new; the files that existed stay as they were, and no file appears
    but those named by a label and the random part of one of the saves. *)
Theorem C182_sessions : forall lhs_first iter path f w0 ss,
  good_iter iter -> w_discriminators w0 = ∅ -> w_mapping w0 = ∅ -> w_searchBestConfidence w0 = false -> w_addressSize w0 <> 0 -> SpecSaved.int_options w0 ->
  Forall (safe_call w0) (List.concat (fst <$> ss)) -> zsum (handed <$> List.concat (fst <$> ss)) < INT_MAX - 1 ->
  (forall before cs rnd after, ss = before ++ (cs, rnd) :: after ->
     let calls := List.concat (fst <$> before) ++ cs in let '(os, w) := outcomes (wcall_run lhs_first) w0 calls in
     all_taught calls os w /\ (forall k, length (rnd k) = 10%nat) /\ forall l, is_Some (w_discriminators w !! l) -> free_name f (label_file path rnd l)) ->
  (forall a cs rnd b cs2 rnd2 c, ss = a ++ (cs, rnd) :: b ++ (cs2, rnd2) :: c -> forall l, rnd l <> rnd2 l) ->
  exists f', file_sessions lhs_first iter path f w0 ss = Ok (outcomes (wcall_run lhs_first) w0 (List.concat (fst <$> ss)), f') /\
    (forall n s, fs_read f n = Some s -> fs_read f' n = Some s) /\
    forall n, (forall p l, p ∈ ss -> n <> label_file path (snd p) l) -> fs_read f' n = fs_read f n.
Proof.
  intros lhs iter path f w0 ss Hi H0 Hm Hsb Ha Ho Hc HM Hall Hdis.
  assert (Hr : some_rams w0) by (intros l; rewrite Hm, lookup_empty; discriminate).
  assert (Hwm : forall w, same_setup w0 w -> without_mapping w = w).
  { intros w Hw. unfold without_mapping. destruct w. unfold same_setup in Hw. injection Hw as; subst. cbn in *. rewrite Hm, Hsb. reflexivity. }
  set (M := fun cs => outcomes (wcall_run lhs) w0 cs) in *.
  assert (Hfine : forall a b, List.concat (fst <$> ss) = a ++ b -> Forall served (fst (M a)) /\ same_setup w0 (snd (M a)) /\ Forall (safe_call w0) a /\ zsum (handed <$> a) < INT_MAX - 1).
  { intros a b E. rewrite E in Hc, HM. apply Forall_app in Hc as [Hc _]. rewrite fmap_app, zsum_app in HM. pose proof (total_handed b).
    pose proof (outcomes_fine lhs w0 a 0 w0 Ha (same_refl w0) ltac:(lia) ltac:(lia)) as Hf. specialize (Hf ltac:(intros l d; rewrite H0, lookup_empty; discriminate) Hc).
    subst M. cbv beta. destruct (outcomes (wcall_run lhs) w0 a). cbn [fst snd]. split; [apply Hf|]. split; [apply Hf|]. split; [exact Hc|lia]. }
  assert (Hgo : forall after before g, ss = before ++ after ->
    (forall n s, fs_read f n = Some s -> fs_read g n = Some s) ->
    (forall mid cs rnd rest, after = mid ++ (cs, rnd) :: rest -> forall l, is_Some (w_discriminators (snd (M (List.concat (fst <$> (before ++ mid)) ++ cs))) !! l) -> free_name g (label_file path rnd l)) ->
    exists f', file_sessions lhs iter path g (snd (M (List.concat (fst <$> before)))) after = Ok (outcomes (wcall_run lhs) (snd (M (List.concat (fst <$> before)))) (List.concat (fst <$> after)), f') /\
      (forall n s, fs_read f n = Some s -> fs_read f' n = Some s) /\
      forall n, (forall p l, p ∈ after -> n <> label_file path (snd p) l) -> fs_read f' n = fs_read g n).
  { induction after as [|[cs rnd] after IH]; intros before g E Hkeep Hfree; [exists g; split; [reflexivity|split; [exact Hkeep|reflexivity]]|].
    assert (E' : ss = (before ++ [(cs, rnd)]) ++ after) by (rewrite <- app_assoc; exact E).
    assert (Eb : List.concat (fst <$> (before ++ [(cs, rnd)])) = List.concat (fst <$> before) ++ cs) by (rewrite fmap_app, List.concat_app; cbn; rewrite app_nil_r; reflexivity).
    assert (Es : List.concat (fst <$> ss) = (List.concat (fst <$> before) ++ cs) ++ List.concat (fst <$> after)) by (rewrite E', fmap_app, List.concat_app, Eb; reflexivity).
    specialize (Hall before cs rnd after E) as Ht. cbv zeta in Ht. pose proof (Hfree [] cs rnd after eq_refl) as Hf0. rewrite app_nil_r in Hf0.
    destruct (Hfine _ _ Es) as (S1 & S2 & S3 & S4). destruct (Hfine (List.concat (fst <$> before)) (cs ++ List.concat (fst <$> after)) ltac:(rewrite Es, app_assoc; reflexivity)) as (B1 & _).
    pose proof (file_step lhs iter rnd g path w0 _ Hi H0 Ha Ho Hr S3 S4) as Hstep. change (outcomes (wcall_run lhs) w0 (List.concat (fst <$> before) ++ cs)) with (M (List.concat (fst <$> before) ++ cs)) in Hstep.
    specialize (IH (before ++ [(cs, rnd)])). rewrite Eb in IH.
    pose proof (outcomes_app (wcall_run lhs) (List.concat (fst <$> before)) cs w0 B1) as Eo. fold (M (List.concat (fst <$> before))) in Eo. fold (M (List.concat (fst <$> before) ++ cs)) in Eo.
    assert (Su : Forall served (fst (outcomes (wcall_run lhs) (snd (M (List.concat (fst <$> before)))) cs))) by (rewrite Eo in S1; cbn [fst] in S1; apply Forall_app in S1; exact (proj2 S1)).
    set (u := snd (M (List.concat (fst <$> before)))) in *. change (List.concat (fst <$> (cs, rnd) :: after)) with (cs ++ List.concat (fst <$> after)).
    rewrite (outcomes_app _ cs (List.concat (fst <$> after)) u Su).
    assert (Ev : snd (outcomes (wcall_run lhs) u cs) = snd (M (List.concat (fst <$> before) ++ cs))) by (rewrite Eo; reflexivity).
    cbn [file_sessions]. destruct (outcomes (wcall_run lhs) u cs) as [ou v]. cbn [fst snd] in *. subst v. clear Eo.
    destruct (M (List.concat (fst <$> before) ++ cs)) as [os w] eqn:EM. cbn [fst snd] in *. destruct Ht as (T1 & T2 & _).
    destruct (Hstep T1 T2 Hf0) as (j & f1 & E1 & E2 & D1 & D2). rewrite E1. cbn [rbind]. rewrite E2. cbn [rbind]. rewrite (Hwm w S2).
    destruct (IH f1 E') as (f' & EF & HF & HO).
    - intros n s Hs. rewrite D2; [exact (Hkeep n s Hs)|]. intros (k & Hk & ->). destruct (Hf0 k Hk) as (_ & _ & _ & Hn). specialize (Hkeep _ _ Hs). congruence.
    - intros mid cs2 rnd2 rest Ea l Hl. rewrite <- app_assoc in Hl. specialize (Hfree ((cs, rnd) :: mid) cs2 rnd2 rest ltac:(rewrite Ea; reflexivity) l Hl). destruct Hfree as (A1 & A2 & A3 & A4).
      split; [exact A1|]. split; [exact A2|]. split; [rewrite D1; exact A3|]. rewrite D2; [exact A4|]. intros (k & Hk & En). symmetry in En. apply label_file_inj in En as [-> En]; [|apply T2|].
      + apply (Hdis before cs rnd mid cs2 rnd2 rest ltac:(rewrite E, Ea; reflexivity) l En).
      + specialize (Hall (before ++ (cs, rnd) :: mid) cs2 rnd2 rest ltac:(rewrite E, Ea, <- app_assoc; reflexivity)). cbv zeta in Hall. destruct (M (List.concat (fst <$> (before ++ (cs, rnd) :: mid)) ++ cs2)) as [oo ww]. destruct Hall as (_ & Hl10 & _). apply Hl10.
    - rewrite EF. cbn [rbind fst snd]. exists f'. split; [reflexivity|]. split; [exact HF|]. intros n Hn. rewrite HO; [|intros p l Hp; apply Hn; right; exact Hp].
      apply D2. intros (k & _ & En). exact (Hn (cs, rnd) k ltac:(left) En). }
  apply (Hgo ss [] f eq_refl); [auto|]. intros mid cs rnd rest E l Hl. specialize (Hall mid cs rnd rest E). cbv zeta in Hall. cbn [app] in Hl. change (outcomes (wcall_run lhs) w0 (List.concat (fst <$> mid) ++ cs)) with (M (List.concat (fst <$> mid) ++ cs)) in Hall.
  destruct (M (List.concat (fst <$> mid) ++ cs)) as [os w]. apply Hall, Hl.
Qed.
Print Assumptions C182_sessions.

(** The hypotheses are met by three saves into a directory that holds another file. *)
Definition disk3 : fs := Fs {[lit "dir/other.wdpkg" := lit "data"]} (fun _ => true).
Definition three_f : list (list wcall * (str -> str)) := [(survivors, fun _ => lit "Aa00000000"); (second, fun _ => lit "Bb00000000"); (third, fun _ => lit "Cc00000000")].
Lemma three_all : List.concat (fst <$> three_f) = List.concat three.
Proof. reflexivity. Qed.
Example C182_witness : Forall (safe_call wild) (List.concat (fst <$> three_f)) /\ zsum (handed <$> List.concat (fst <$> three_f)) < INT_MAX - 1 /\
  (forall before cs rnd after, three_f = before ++ (cs, rnd) :: after ->
     let calls := List.concat (fst <$> before) ++ cs in let '(os, w) := outcomes (wcall_run false) wild calls in
     all_taught calls os w /\ (forall k, length (rnd k) = 10%nat) /\ forall l, is_Some (w_discriminators w !! l) -> free_name disk3 (label_file (lit "dir/") rnd l)) /\
  (forall a cs rnd b cs2 rnd2 c, three_f = a ++ (cs, rnd) :: b ++ (cs2, rnd2) :: c -> forall l, rnd l <> rnd2 l) /\
  fs_read disk3 (lit "dir/other.wdpkg") = Some (lit "data").
Proof.
  destruct C177_witness as (W1 & W2 & _ & _ & W3 & _). rewrite three_all. split; [exact W1|]. split; [exact W2|].
  assert (Hlab : forall rest, bool_decide (map_Forall (fun l _ => l = hot \/ l = cold) (w_discriminators (snd (outcomes (wcall_run false) wild rest)))) = true ->
    forall l, is_Some (w_discriminators (snd (outcomes (wcall_run false) wild rest)) !! l) -> l = hot \/ l = cold).
  { intros rest H l [d E]. apply bool_decide_eq_true in H. exact (H l d E). }
  assert (La : bool_decide (map_Forall (fun l _ => l = hot \/ l = cold) (w_discriminators (snd (outcomes (wcall_run false) wild survivors)))) = true) by (vm_compute; reflexivity).
  assert (Lb : bool_decide (map_Forall (fun l _ => l = hot \/ l = cold) (w_discriminators (snd (outcomes (wcall_run false) wild (survivors ++ second))))) = true) by (vm_compute; reflexivity).
  assert (Lc : bool_decide (map_Forall (fun l _ => l = hot \/ l = cold) (w_discriminators (snd (outcomes (wcall_run false) wild (survivors ++ second ++ third))))) = true) by (vm_compute; reflexivity).
  assert (Hfree : forall x l, x = lit "Aa00000000" \/ x = lit "Bb00000000" \/ x = lit "Cc00000000" -> l = hot \/ l = cold -> free_name disk3 (label_file (lit "dir/") (fun _ => x) l)).
  { intros x l [-> | [-> | ->]] [-> | ->]; (split; [apply utf8_ok_iff; vm_compute; reflexivity|]; split; [vm_compute; reflexivity|]; split; [reflexivity|vm_compute; reflexivity]). }
  assert (Hten : length (lit "Aa00000000") = 10%nat /\ length (lit "Bb00000000") = 10%nat /\ length (lit "Cc00000000") = 10%nat) by (vm_compute; auto).
  split; [|split].
  - intros before cs rnd after E.
    assert (Hmain : forall before' after' calls, three = before' ++ after' -> before' <> [] -> List.concat before' = calls -> bool_decide (map_Forall (fun l _ => l = hot \/ l = cold) (w_discriminators (snd (outcomes (wcall_run false) wild calls)))) = true ->
      forall x, x = lit "Aa00000000" \/ x = lit "Bb00000000" \/ x = lit "Cc00000000" -> let '(os, w) := outcomes (wcall_run false) wild calls in
      all_taught calls os w /\ (str -> length x = 10%nat) /\ forall l, is_Some (w_discriminators w !! l) -> free_name disk3 (label_file (lit "dir/") (fun _ => x) l)).
    { intros before' after' calls Et Hne Ec HL x Hx. pose proof (W3 before' after' Et Hne) as H. rewrite Ec in H. pose proof (Hlab calls HL) as Hl. destruct (outcomes (wcall_run false) wild calls) as [os w]. cbn [snd] in *.
      split; [exact H|]. split; [intros _; destruct Hx as [-> | [-> | ->]]; apply Hten|]. intros l Hs. apply Hfree; [exact Hx|exact (Hl l Hs)]. }
    assert (Ek : before = [] /\ (cs, rnd) = (survivors, fun _ : str => lit "Aa00000000") \/ before = [(survivors, fun _ : str => lit "Aa00000000")] /\ (cs, rnd) = (second, fun _ : str => lit "Bb00000000") \/
      before = [(survivors, fun _ : str => lit "Aa00000000"); (second, fun _ : str => lit "Bb00000000")] /\ (cs, rnd) = (third, fun _ : str => lit "Cc00000000")).
    { unfold three_f in E. destruct before as [|p1 [|p2 [|p3 before]]]; cbn [app] in E.
      - left. split; [reflexivity|]. injection E as E1 E2 E3. rewrite <- E1, <- E2. reflexivity.
      - right. left. injection E as E0 E1 E2 E3. rewrite <- E0, <- E1, <- E2. split; reflexivity.
      - right. right. injection E as E0 E0' E1 E2 E3. rewrite <- E0, <- E0', <- E1, <- E2. split; reflexivity.
      - exfalso. injection E as _ _ _ E. symmetry in E. apply app_eq_nil in E as [_ E]. discriminate E. }
    destruct Ek as [[-> E1] | [[-> E1] | [-> E1]]]; injection E1 as -> ->.
    + apply (Hmain [survivors] [second; third] survivors); [reflexivity|discriminate|cbn [List.concat]; apply app_nil_r|exact La|auto].
    + apply (Hmain [survivors; second] [third] (survivors ++ second)); [reflexivity|discriminate|cbn [List.concat]; rewrite app_nil_r; reflexivity|exact Lb|auto].
    + apply (Hmain [survivors; second; third] [] (survivors ++ second ++ third)); [reflexivity|discriminate|cbn [List.concat]; rewrite app_nil_r; reflexivity|exact Lc|auto].
  - intros a cs rnd b cs2 rnd2 c E l.
    assert (N : NoDup [lit "Aa00000000"; lit "Bb00000000"; lit "Cc00000000"]) by (refine (bool_decide_unpack _ _); vm_compute; exact I).
    assert (F : (fun p : list wcall * (str -> str) => snd p l) <$> three_f = [lit "Aa00000000"; lit "Bb00000000"; lit "Cc00000000"]) by reflexivity.
    rewrite <- F, E, fmap_app, fmap_cons, fmap_app, fmap_cons in N. apply NoDup_app in N as (_ & _ & N). apply NoDup_cons in N as [N _]. cbn [snd] in N. intros En. apply N. rewrite En. apply elem_of_app. right. left.
  - vm_compute. reflexivity.
Qed.
