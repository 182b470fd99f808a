(** RAMDataHandle on files, and on what discriminators save. *)
From Verif Require Import Prelude Bytes Base64 Utils BinInput Ram Json Fs RamData Disc SpecBin SpecDisc SpecSaved.
From Verif Require Import Base64Proofs BytesProofs TextProofs RamDataProofs DiscCtorProofs CtorFacts JsonNF RamProofs DiscProofs DiscFacts JsonProofs.
From Verif Require Import TextProofs RamDataProofs DataFacts JsonNF JsonProofs JsonFacts.

Lemma handle_file iter f h ms name : valid_iter iter -> hrepr h ms -> ms <> [] ->
  Forall (fun m => valid_entries m /\ m <> ∅) ms -> len (name ++ ramdata_sufix) < W64 ->
  fs_read f (name ++ ramdata_sufix) = Some (join_dots (ram_text iter <$> ms)) ->
  handle_of_text f (name ++ ramdata_sufix) = Ok h.
Proof.
  intros Hi Hr Hne Hall Hn E. unfold handle_of_text. rewrite has_suffix_app by exact Hn. cbn [rbind]. rewrite E.
  rewrite fields_join.
  - destruct (push_fields_spec iter ms Hi Hall ∅ [] hrepr_nil) as (h' & -> & Hr'). f_equal. exact (hrepr_unique _ _ _ Hr' Hr).
  - destruct ms; [congruence|discriminate].
  - apply Forall_fmap, Forall_forall. intros m _. apply ram_text_no_dot.
Qed.

Lemma handle_roundtrip_file iter f h n name : valid_iter iter -> handle_ok h n -> (n > 0)%nat -> Z.of_nat n <= INT_MAX ->
  exists text, (forall fuel, (n <= fuel)%nat -> handle_data fuel iter h = Ok (text, h)) /\
    (len (name ++ ramdata_sufix) < W64 -> fs_read f (name ++ ramdata_sufix) = Some text -> handle_of_text f (name ++ ramdata_sufix) = Ok h).
Proof.
  intros Hi Hok Hn Hmax. destruct (handle_ok_repr h n Hok) as (ms & Hr & Hlen & Hall).
  exists (join_dots (ram_text iter <$> ms)). split.
  - intros fuel Hf. apply handle_data_spec; [exact Hr| |lia]. unfold len. lia.
  - intros Hl E. apply (handle_file iter f h ms); auto. destruct ms; [cbn in Hlen; lia|congruence].
Qed.

Lemma hrepr_exists ms : exists h, hrepr h ms.
Proof.
  induction ms as [|m ms [h IH]] using rev_ind; [exists ∅; apply hrepr_nil|]. eexists. apply hrepr_push, IH.
Qed.
Lemma storable_contents iz base rs : Forall (storable_ram iz base) rs -> Forall (fun m => valid_entries m /\ m <> ∅) (r_positions <$> rs).
Proof. intros H. apply Forall_fmap. eapply Forall_impl; [exact H|]. intros r (_ & _ & _ & _ & _ & _ & H1 & H2). split; assumption. Qed.
Lemma texts_positions iter rs : texts iter rs = ram_text iter <$> (r_positions <$> rs).
Proof. unfold texts. rewrite <- list_fmap_compose. reflexivity. Qed.

Lemma handle_of_saved iter rnd f path d0 h d : good_iter iter -> constructed d0 -> Forall (Forall is_int) (disc_mapping d0) ->
  all_valid d0 h -> len h <= INT_MAX -> run d0 h = (Ok tt, d) -> (exists x, Train x ∈ h) -> saved_size d <= INT_MAX + 1 ->
  exists j text, disc_json iter rnd f d false path = (Ok j, f) /\ jfield j (lit "data") = Ok (JStr text) /\
    forall f', exists hd, handle_of_text f' text = Ok hd /\ hrepr hd (r_positions <$> d_rams d).
Proof.
  intros Hi Hc Hm Hv Hl E Hx Hs. pose proof (run_inv d0 h d Hc Hv Hl E) as Ha. destruct (constructed_uniform d0 Hc) as (iz & base & Hu).
  destruct (after_storable iter iz base d0 h d Hi (constructed_fresh _ Hc) Hu Hm Hv Hl Ha Hx Hs) as [Hst Hall].
  exists (json_value d (join_dots (texts iter (d_rams d)))), (join_dots (texts iter (d_rams d))).
  pose proof (data_mem iter rnd f d path Hi Hst) as Ed. split; [rewrite disc_json_nf; rewrite Ed; [reflexivity|apply texts_utf8]|].
  split; [unfold json_value; destruct (d_rams d); reflexivity|].
  intros f'. destruct (hrepr_exists (r_positions <$> d_rams d)) as [hd Hr]. exists hd. split; [|exact Hr].
  destruct Hst as (_ & _ & Hne & _ & Hlen). rewrite texts_positions in *. apply handle_text_roundtrip; auto.
  - destruct (d_rams d); [congruence|discriminate].
  - eapply storable_contents, Hall.
Qed.
Lemma handle_of_saved_file iter rnd f path d0 h d : good_iter iter -> constructed d0 -> Forall (Forall is_int) (disc_mapping d0) ->
  all_valid d0 h -> len h <= INT_MAX -> run d0 h = (Ok tt, d) -> (exists x, Train x ∈ h) -> saved_size d <= INT_MAX + 1 ->
  let name := path ++ rnd ++ lit ".wdpkg" in
  utf8_ok name = true -> len name < W64 -> fs_writable f name = true -> fs_read f name = None ->
  exists j f' hd, disc_json iter rnd f d true path = (Ok j, f') /\ jfield j (lit "data") = Ok (JStr name) /\
    handle_of_text f' name = Ok hd /\ hrepr hd (r_positions <$> d_rams d).
Proof.
  intros Hi Hc Hm Hv Hl E Hx Hs name Hun Hn Hw Hrd. pose proof (run_inv d0 h d Hc Hv Hl E) as Ha. destruct (constructed_uniform d0 Hc) as (iz & base & Hu).
  destruct (after_storable iter iz base d0 h d Hi (constructed_fresh _ Hc) Hu Hm Hv Hl Ha Hx Hs) as [Hst Hall].
  destruct (hrepr_exists (r_positions <$> d_rams d)) as [hd Hr].
  exists (json_value d name), (fs_append f name (ramsdata_file iter (d_rams d))), hd.
  split. { rewrite disc_json_nf; unfold getRAMsData; cbn [fst snd]; [reflexivity|exact Hun]. }
  split; [unfold json_value; destruct (d_rams d); reflexivity|]. split; [|exact Hr].
  assert (En : name = (path ++ rnd) ++ ramdata_sufix) by (unfold name; rewrite <- app_assoc; reflexivity).
  destruct Hst as (_ & _ & Hne & _ & Hlen). 
  rewrite En at 2. apply (handle_file iter _ hd (r_positions <$> d_rams d)); auto.
  - destruct (d_rams d); [congruence|discriminate].
  - eapply storable_contents, Hall.
  - rewrite <- En. exact Hn.
  - rewrite <- En. unfold fs_append. rewrite Hw. unfold fs_read in *. cbn [fs_files]. rewrite lookup_insert, Hrd, file_join, texts_positions. reflexivity.
Qed.
