(** Which discriminators survive a save, and what the other cases do (C57-C59, C62, C63). *)
From Verif Require Import Prelude Bytes Base64 Utils BinInput Ram Json Fs RamData Disc SpecBin SpecDisc SpecSaved.
From Verif Require Import Base64Proofs BytesProofs TextProofs RamDataProofs DiscCtorProofs CtorFacts JsonNF RamProofs DiscProofs DiscFacts JsonProofs.

(** Common parameters of a fresh discriminator. *)
Definition uniform (iz : bool) (base : Z) (d : disc) : Prop :=
  is_int base /\ is_int (d_entrySize d) /\ d_rams d <> [] /\ Forall (fun r => r_ignoreZero r = iz /\ r_base r = base) (d_rams d).
Lemma new_uniform dr a e iz c indexes mapping base d : valid_draw dr -> is_int e -> is_int base ->
  len indexes <= INT_MAX -> Forall (fun m => len m <= INT_MAX) mapping ->
  disc_new dr a e iz c indexes mapping base = Ok d -> uniform iz base d.
Proof.
  intros Hdr He Hb Hli Hlm H.
  apply disc_new_inv in H; auto. split; [exact Hb|]. destruct H as (_ & [(Hne & _ & ->)|(_ & Ha & _ & [(_ & _ & ->)|(_ & _ & idx & fs & _ & _ & _ & ->)])]); cbn [d_entrySize d_rams]; (split; [exact He|]).
  - split; [unfold rams_map; destruct mapping; [congruence|discriminate]|]. unfold rams_map. apply Forall_fmap, Forall_true. intros; split; reflexivity.
  - assert (1 <= e / a) by (apply Z.div_le_lower_bound; lia). split.
    + unfold rams_of. destruct (Z.to_nat (e / a)) eqn:En; [lia|discriminate].
    + unfold rams_of. apply Forall_fmap, Forall_true. intros; split; reflexivity.
  - destruct (count_extra e a c Ha) as (Hk & _). split.
    + unfold rams_of. destruct (Z.to_nat (rams_count e a c)) eqn:En; [lia|discriminate].
    + unfold rams_of. apply Forall_fmap, Forall_true. intros; split; reflexivity.
Qed.
Lemma constructed_uniform d : constructed d -> exists iz base, uniform iz base d.
Proof.
  intros (dr & a & e & iz & c & indexes & mapping & base & Hdr & _ & He & Hb & Hli & Hlm & H). exists iz, base. exact (new_uniform dr a e iz c indexes mapping base d Hdr He Hb Hli Hlm H).
Qed.

Lemma ram_after_storable iz base r0 r h : ram_shape r0 -> r_ignoreZero r0 = iz -> r_base r0 = base -> is_int base ->
  Forall is_int (r_addresses r0) -> ram_after h r0 r -> Forall (fun o => valid_on r0 (op_image o)) h ->
  (exists x, Train x ∈ h) -> len h <= INT_MAX -> storable_ram iz base r.
Proof.
  intros Hs Hz Hb Hib Ha [Hsame Hst] Hv (x & Hx) Hl. destruct Hsame as [E1 E2 E3]. unfold storable_ram. rewrite E1, E2, E3.
  destruct Hs as [H2 Hw]. rewrite <- Hb in Hib. split; [exact Hz|]. split; [exact Hb|]. rewrite <- Hb.
  split; [exact H2|]. split; [exact Hib|]. split; [exact Hw|]. split; [exact Ha|]. split.
  - intros a v Hav. pose proof Hst as [_ Hst2]. destruct (Hst2 _ _ Hav) as (y & _ & Hy & Ey). destruct (valid_index r0 y (conj H2 Hw) Hy) as (ds & _ & _ & Ei & Hr).
    rewrite Ey in Ei. injection Ei as ->. pose proof (width_pow (r_base r0) (len (r_addresses r0)) H2 (len_nonneg _) Hw).
    pose proof (cell_state_bound r0 h (r_positions r) _ v (conj H2 Hw) Hst Hav). unfold INT_MIN, INT_MAX in *. lia.
  - intros Hempty. destruct Hst as [H _]. rewrite Forall_forall in Hv. pose proof (Hv _ Hx) as Hvx. cbn [op_image] in Hvx.
    destruct (valid_index r0 x (conj H2 Hw) Hvx) as (ds & _ & _ & Ei & _). specialize (H x _ Hvx Ei). rewrite Hempty, lookup_empty in H.
    symmetry in H. unfold cell in H. destruct (Z.eqb_spec (trainings (r_addresses r0) x h) 0) as [E|]; [|discriminate].
    assert (0 < trainings (r_addresses r0) x h); [|lia]. clear -Hx. unfold trainings.
    induction h as [|o h IH]; [inversion Hx|]. rewrite count_if_cons. pose proof (count_if_range (fun o => match o with Train y => bool_decide (agree (r_addresses r0) x y) | Untrain _ => false end) h).
    apply elem_of_cons in Hx as [<-|Hx].
    + rewrite bool_decide_eq_true_2; [lia|]. unfold agree. apply Forall_true. reflexivity.
    + specialize (IH Hx). destruct o; [destruct (bool_decide _)|]; lia.
Qed.
Lemma after_storable iter iz base d0 h d : valid_iter iter -> fresh d0 -> uniform iz base d0 -> Forall (Forall is_int) (disc_mapping d0) ->
  Forall (fun o => valid_image d0 (op_image o)) h -> len h <= INT_MAX -> after d0 h d -> (exists x, Train x ∈ h) ->
  saved_size d <= INT_MAX + 1 -> storable iter d /\ Forall (storable_ram iz base) (d_rams d).
Proof.
  intros Hi [_ Hf] (Hib & He & Hne & Hu) Hm Hv Hl [A B C] Hx Hsz.
  assert (Hall : Forall (storable_ram iz base) (d_rams d)).
  { unfold disc_mapping in Hm. assert (Hv' : Forall (fun r => Forall (fun o => valid_on r (op_image o)) h) (d_rams d0)).
    { apply Forall_forall. intros r Hr. apply Forall_forall. intros o Ho. rewrite Forall_forall in Hv. destruct (Hv o Ho) as [_ H]. rewrite Forall_forall in H. apply (H r Hr). }
    clear Hv Hne A B Hsz He. induction C as [|r0 r rs0 rs Hr _ IH]; [constructor|]. rewrite fmap_cons in Hm.
    apply Forall_cons in Hf as [[Hf0 _] Hf]. apply Forall_cons in Hu as [[Hu1 Hu2] Hu]. apply Forall_cons in Hm as [Hm0 Hm]. apply Forall_cons in Hv' as [Hv0 Hv'].
    constructor; [|apply IH; assumption]. eapply ram_after_storable; eassumption. }
  assert (Hne' : d_rams d <> []) by (intros E; rewrite E in C; apply Forall2_length in C; destruct (d_rams d0); [congruence|discriminate]).
  split; [|exact Hall]. split; [rewrite A; exact He|]. split; [rewrite B; pose proof (signed_count_range h); unfold is_int, INT_MIN, INT_MAX in *; lia|].
  split; [exact Hne'|]. split; [eauto|]. pose proof (texts_size iter d Hi Hne'). lia.
Qed.

(** C57 *)
Lemma json_roundtrip iter rnd f path d0 h d : good_iter iter -> constructed d0 -> Forall (Forall is_int) (disc_mapping d0) ->
  all_valid d0 h -> len h <= INT_MAX -> run d0 h = (Ok tt, d) -> (exists x, Train x ∈ h) -> saved_size d <= INT_MAX + 1 ->
  exists j, disc_json iter rnd f d false path = (Ok j, f) /\ forall f', disc_of_json f' j = Ok d.
Proof.
  intros Hi Hc Hm Hv Hl E Hx Hs. pose proof (run_inv d0 h d Hc Hv Hl E) as Ha. destruct (constructed_uniform d0 Hc) as (iz & base & Hu).
  apply roundtrip_mem; [exact Hi|]. eapply after_storable; eauto using constructed_fresh.
Qed.
(** C62 *)
Lemma json_roundtrip_huge iter rnd f path d0 h d : good_iter iter -> constructed d0 -> Forall (Forall is_int) (disc_mapping d0) ->
  all_valid d0 h -> len h <= INT_MAX -> run d0 h = (Ok tt, d) -> (exists x, Train x ∈ h) -> saved_size d <= INT_MAX + 1 ->
  let name := path ++ rnd ++ lit ".wdpkg" in
  utf8_ok name = true -> len name < W64 -> fs_writable f name = true -> fs_read f name = None ->
  exists j f', disc_json iter rnd f d true path = (Ok j, f') /\ disc_of_json f' j = Ok d.
Proof.
  intros Hi Hc Hm Hv Hl E Hx Hs name. pose proof (run_inv d0 h d Hc Hv Hl E) as Ha. destruct (constructed_uniform d0 Hc) as (iz & base & Hu).
  apply roundtrip_file; [exact Hi|]. eapply after_storable; eauto using constructed_fresh.
Qed.

(** C58 *)
Lemma empty_text iter : good_iter iter -> ram_text iter ∅ = [].
Proof. intros Hi. unfold ram_text. pose proof (Hi ∅) as H. rewrite map_to_list_empty in H. apply Permutation_nil_r in H. rewrite H. reflexivity. Qed.
Lemma fresh_texts iter rs : good_iter iter -> Forall (fun r => r_positions r = ∅) rs -> ramsdata_mem iter rs [] = [].
Proof.
  intros Hi H. induction H as [|r rs Hr _ IH]; [reflexivity|]. cbn [ramsdata_mem]. unfold ram_getData. rewrite Hr, (empty_text iter Hi). exact IH.
Qed.
Lemma untrained_reload iter rnd f path d : good_iter iter -> constructed d ->
  exists j, disc_json iter rnd f d false path = (Ok j, f) /\ forall f', disc_of_json f' j = Throw EOutOfRange.
Proof.
  intros Hi Hc. exists (json_value d []). destruct (constructed_uniform d Hc) as (iz & base & _ & He & Hne & Hu). apply constructed_fresh in Hc as [Hc Hf].
  assert (E : getRAMsData iter rnd f d false path = ([], f)).
  { unfold getRAMsData. f_equal. apply fresh_texts; [exact Hi|]. eapply Forall_impl; [exact Hf|]. intros r [_ H]. exact H. }
  split; [rewrite disc_json_nf; rewrite E; [reflexivity|vm_compute; reflexivity]|].
  intros f'. rewrite (disc_of_value f' d [] iz base); [|exact He|rewrite Hc; unfold is_int, INT_MIN, INT_MAX; lia|].
  - reflexivity.
  - destruct (d_rams d); [congruence|]. apply Forall_cons in Hu as [Hu _]. exact Hu.
Qed.

(** C59 *)
Lemma jsonConfig_reload d : exists j, disc_jsonConfig d = Ok j /\ forall f, disc_of_json f j = Throw EJsonType.
Proof.
  exists (jsonConfig_value d). split; [apply disc_jsonConfig_nf|]. intros f. unfold jsonConfig_value. generalize (jintss (disc_mapping d)) as m. intros m.
  destruct (d_rams d); reflexivity.
Qed.

(** C63 *)
Lemma huge_lost iter rnd f path d : is_int (d_entrySize d) -> is_int (d_count d) -> d_rams d <> [] ->
  let name := path ++ rnd ++ lit ".wdpkg" in
  utf8_ok name = true -> len name < W64 -> fs_writable f name = false -> fs_read f name = None ->
  exists j, disc_json iter rnd f d true path = (Ok j, f) /\ disc_of_json f j = Ok (Disc (d_entrySize d) (d_count d) []).
Proof.
  intros He Hc Hne name Hu Hn Hw Hr. exists (json_value d name). split.
  - rewrite disc_json_nf; unfold getRAMsData; cbn [fst snd]; change (path ++ rnd ++ ramdata_sufix) with name; [|exact Hu].
    unfold fs_append. rewrite Hw. reflexivity.
  - destruct (d_rams d) as [|r rs] eqn:E; [congruence|]. rewrite (disc_of_value f d name (r_ignoreZero r) (r_base r) He Hc) by (rewrite E; auto).
    unfold setRAMsData. replace name with ((path ++ rnd) ++ ramdata_sufix) in * by (unfold name; rewrite <- app_assoc; reflexivity).
    rewrite has_suffix_app by exact Hn. cbn [rbind]. rewrite Hr. reflexivity.
Qed.
