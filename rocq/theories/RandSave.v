(** Two models of the same shape built in the same second and saved under the same path write to one
    file (C126). *)
From Verif Require Import Prelude Bytes Base64 Utils BinInput Ram Json Fs RamData Disc Synth Rand.
From Verif Require Import SpecBase64 SpecDisc SpecSaved.
From Verif Require Import Base64Proofs BytesProofs TextProofs RamDataProofs DiscCtorProofs CtorFacts JsonNF JsonProofs RamProofs DiscProofs DiscFacts JsonFacts CrashProofs RandProofs.

Lemma getline_more c (a t : str) : c ∉ a -> fst (fst (getline c (a ++ t))) = a ++ fst (fst (getline c t)).
Proof.
  induction a as [|x a IH]; intros H; [reflexivity|]. cbn [app getline]. rewrite decide_False by (intros ->; apply H; left).
  specialize (IH (fun H' => H (elem_of_list_further _ _ _ H'))). destruct (getline c (a ++ t)) as [[u v] e]. cbn [fst] in *. rewrite IH. reflexivity.
Qed.
Lemma rams_of_file_glue iter f iz base (t : str) : valid_iter iter -> forall (rs : list ram) (r : ram),
  Forall (storable_ram iz base) rs -> len (join_dots (texts iter (rs ++ [r]))) <= INT_MAX ->
  rams_of_file f (rbase_of iz base) (jints <$> (r_addresses <$> (rs ++ [r]))) (join_dots (texts iter (rs ++ [r])) ++ t) false =
    (let* r' := ram_of_parts f (rbase_of iz base) (jints (r_addresses r)) (ram_getData iter r ++ fst (fst (getline "." t))) in Ok (rs ++ [r'])).
Proof.
  intros Hi. induction rs as [|x rs IH]; intros r Hall Hlen; unfold texts in *.
  - cbn [app fmap list_fmap join_dots rams_of_file]. pose proof (getline_more "." (ram_getData iter r) t (ram_text_no_dot _ _)) as G.
    destruct (getline "." (ram_getData iter r ++ t)) as [[u v] e]. cbn [fst] in G. subst u.
    destruct (ram_of_parts _ _ _ _) as [r'| | |]; try reflexivity.
  - apply Forall_cons in Hall as [Hx Hall]. change ((x :: rs) ++ [r]) with (x :: (rs ++ [r])) in *. rewrite !fmap_cons in *. cbn [rams_of_file].
    destruct (ram_getData iter <$> rs ++ [r]) as [|y ys] eqn:E; [destruct rs; discriminate|]. rewrite join_cons in *.
    rewrite <- app_assoc. cbn [app]. rewrite getline_app by apply ram_text_no_dot.
    rewrite len_app, len_cons in Hlen. pose proof (len_nonneg (ram_getData iter x)). pose proof (len_nonneg (join_dots (y :: ys))).
    rewrite (ram_of_parts_ok iter) by (auto; lia). cbn [rbind].
    specialize (IH r Hall). rewrite E in IH. rewrite IH by lia. destruct (ram_of_parts _ _ (jints (r_addresses r)) _); reflexivity.
Qed.

Lemma after_addresses d0 h d : after d0 h d -> disc_mapping d = disc_mapping d0.
Proof.
  intros [_ _ H]. unfold disc_mapping. induction H as [|r0 r l0 l Hr _ IH]; [reflexivity|]. rewrite !fmap_cons, IH. f_equal.
  destruct Hr as [Hr _]. destruct Hr as [Hr _] || idtac. congruence.
Qed.

Lemma two_saves iter rnd f path d0 h1 h2 d1 d2 : good_iter iter -> constructed d0 -> Forall (Forall is_int) (disc_mapping d0) ->
  all_valid d0 h1 -> len h1 <= INT_MAX -> run d0 h1 = (Ok tt, d1) -> (exists x, Train x ∈ h1) -> saved_size d1 <= INT_MAX + 1 ->
  all_valid d0 h2 -> len h2 <= INT_MAX -> run d0 h2 = (Ok tt, d2) ->
  let name := path ++ rnd ++ lit ".wdpkg" in
  utf8_ok name = true -> len name < W64 -> fs_writable f name = true -> fs_read f name = None ->
  exists j1 f1 j2 f2, disc_json iter rnd f d1 true path = (Ok j1, f1) /\ disc_json iter rnd f1 d2 true path = (Ok j2, f2) /\
    jfield j1 (lit "data") = Ok (JStr name) /\ jfield j2 (lit "data") = Ok (JStr name) /\
    forall d', disc_of_json f2 j2 = Ok d' -> d_entrySize d' = d_entrySize d1 /\ length (d_rams d') = length (d_rams d1) /\
      exists r r' rs, d_rams d1 = rs ++ [r] /\ d_rams d' = rs ++ [r'].
Proof.
  intros Hi Hc Hm Hv1 Hl1 E1 Hx Hs Hv2 Hl2 E2 name Hun Hn Hw Hrd. pose proof (run_inv d0 h1 d1 Hc Hv1 Hl1 E1) as Ha1. pose proof (run_inv d0 h2 d2 Hc Hv2 Hl2 E2) as Ha2.
  destruct (constructed_uniform d0 Hc) as (iz & base & Hu).
  destruct (after_storable iter iz base d0 h1 d1 Hi (constructed_fresh _ Hc) Hu Hm Hv1 Hl1 Ha1 Hx Hs) as [Hst Hall].
  set (f1 := fs_append f name (ramsdata_file iter (d_rams d1))). set (f2 := fs_append f1 name (ramsdata_file iter (d_rams d2))).
  exists (json_value d1 name), f1, (json_value d2 name), f2.
  split. { rewrite disc_json_nf; unfold getRAMsData; cbn [fst snd]; [reflexivity|exact Hun]. }
  split. { rewrite disc_json_nf; unfold getRAMsData; cbn [fst snd]; [reflexivity|exact Hun]. }
  split; [unfold json_value; destruct (d_rams d1); reflexivity|]. split; [unfold json_value; destruct (d_rams d2); reflexivity|].
  assert (Hread : fs_read f2 name = Some (join_dots (texts iter (d_rams d1)) ++ ramsdata_file iter (d_rams d2))).
  { subst f2 f1. unfold fs_append. rewrite Hw. cbn [fs_writable]. rewrite Hw. unfold fs_read in *. cbn [fs_files]. rewrite !lookup_insert, Hrd. cbn [from_option id].
    rewrite file_join. reflexivity. }
  assert (Hh : match d_rams d2 with [] => False | r :: _ => r_ignoreZero r = iz /\ r_base r = base end).
  { destruct Ha2 as [_ _ Hr]. destruct Hu as (_ & _ & Hne & Hu). destruct (d_rams d0) as [|r0 l0]; [congruence|]. apply Forall2_cons_inv_l in Hr as (r & l & [Hsame _] & _ & ->).
    apply Forall_cons in Hu as [[Hz Hb] _]. destruct Hsame as [Q1 Q2 Q3]. split; congruence. }
  assert (He : d_entrySize d2 = d_entrySize d1) by (destruct Ha1 as [A _ _], Ha2 as [B _ _]; congruence).
  assert (I1 : is_int (d_entrySize d2)) by (destruct Ha2 as [-> _ _]; apply Hu).
  assert (I2 : is_int (d_count d2)). { destruct Ha2 as [_ -> _]. pose proof (signed_count_range h2). unfold is_int, INT_MIN, INT_MAX in *. lia. }
  intros d' Ed. rewrite (disc_of_value f2 d2 name iz base I1 I2 Hh) in Ed.
  assert (Em : disc_mapping d2 = disc_mapping d1) by (rewrite (after_addresses _ _ _ Ha1), (after_addresses _ _ _ Ha2); reflexivity).
  rewrite Em in Ed. unfold setRAMsData in Ed.
  assert (En : name = (path ++ rnd) ++ ramdata_sufix) by (unfold name; rewrite <- app_assoc; reflexivity).
  assert (has_suffix name ramdata_sufix = Ok true) as Hsuf by (rewrite En; apply has_suffix_app; rewrite <- En; exact Hn).
  rewrite Hsuf in Ed. cbn [rbind] in Ed. rewrite Hread in Ed. rewrite jvalues_jintss in Ed. unfold disc_mapping in Ed.
  destruct Hst as (_ & _ & Hne & _ & Hlen). destruct (exists_last Hne) as (rs & r & Er). rewrite Er in Ed, Hlen, Hall.
  apply Forall_app in Hall as [Hall _]. rewrite (rams_of_file_glue iter f2 iz base _ Hi rs r Hall Hlen) in Ed.
  destruct (ram_of_parts _ _ _ _) as [r'| | |]; cbn [rbind] in Ed; try discriminate. injection Ed as <-. cbn [d_entrySize d_rams].
  split; [exact He|]. rewrite Er, !app_length. split; [reflexivity|]. exists r, r', rs. split; reflexivity.
Qed.
Lemma shared_votes d1 d' im votes votes1 r r' rs : d_entrySize d' = d_entrySize d1 -> d_rams d1 = rs ++ [r] -> d_rams d' = rs ++ [r'] ->
  disc_classify d' im = Ok votes -> disc_classify d1 im = Ok votes1 -> take (length rs) votes = take (length rs) votes1.
Proof.
  intros He E1 E' H' H1. unfold disc_classify in *. rewrite He, E' in H'. rewrite E1 in H1. destruct (checkEntrySize _ _); try discriminate. cbn [rbind] in *.
  apply (rmapM_take _ _ _ (length rs)) in H', H1. rewrite !take_app in H', H1. congruence.
Qed.
