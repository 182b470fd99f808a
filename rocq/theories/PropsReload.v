(** C108, continued: what the constructors do with any text. *)
From Coq Require Import SpecFloat.
From Verif Require Import Prelude Bytes Utils Float32 Json Fs RamData Disc Wisard Cluster ClusWisard JsonText TextApi SpecDisc.
From Verif Require Import SpecReload TextTotal ReloadTotal Nearest.

Definition returns_or_throws {A} (r : res A) : Prop := (exists a, r = Ok a) \/ (exists e, r = Throw e).
(** C108 is false in three ways; besides reading outside a content of a wrong length (C108_total_refuted):
    a number outside the ints, and a base with too many addresses. *)
Theorem C108_number_refuted : forall f, disc_of_text strtod_even f (lit "{""entrySize"":1e10}") = UB UBCast.
Proof. intros f. vm_compute. reflexivity. Qed.
Print Assumptions C108_number_refuted.
Theorem C108_base_refuted : forall T f, disc_of_text T f
  (lit "{""entrySize"":70,""count"":0,""data"":""AAAAAAAA"",""mapping"":[[0,1,2,3,4,5,6,7,8,9,10,11,12,13,14,15,16,17,18,19]],""ignoreZero"":false,""base"":10}") = UB UBOverflow.
Proof. intros T f. vm_compute. reflexivity. Qed.
Print Assumptions C108_base_refuted.
(** What holds. These are the only three ways, and no text of less than 2^31-1 characters makes a constructor loop for ever. *)
Definition ends_or_three_ways {A} (r : res A) : Prop := returns_or_throws r \/ r = UB UBIndex \/ r = UB UBOverflow \/ r = UB UBCast.
Theorem C108_outcome_partial : forall T f text, len text < INT_MAX -> (forall name c, fs_read f name = Some c -> len c <= INT_MAX) ->
  ends_or_three_ways (disc_of_text T f text) /\ ends_or_three_ways (wisard_of_text T f text) /\ ends_or_three_ways (clus_of_text T f text).
Proof.
  intros T f text Ht Hf. assert (Hfine : forall A (r : res A), fine all_kinds r -> ends_or_three_ways r).
  { intros A r H. unfold ends_or_three_ways, returns_or_throws. destruct r as [a|e|u|]; [left; left; eauto|left; right; eauto| |contradiction]. right. destruct H as [->|[->|H]]; [auto|auto|]. rewrite H. auto. }
  assert (Hff : files_ok all_kinds f) by (intros name c E; split; [exact (Hf _ _ E)|left; left; reflexivity]).
  unfold disc_of_text, wisard_of_text, clus_of_text.
  destruct (parse_ends T text) as [[j E]|[E|E]]; rewrite E; cbn [rbind]; try (split; [|split]; left; right; eauto; fail).
  apply json_parse_short in E. apply gt_all in E; [|lia].
  split; [|split]; apply Hfine; [eapply disc_fine|eapply wisard_fine|eapply clus_fine]; eassumption.
Qed.
Print Assumptions C108_outcome_partial.
(** And a text without numbers outside the ints, badly cut contents and overflowing bases gives an object or an exception. *)
Theorem C108_tame_partial : forall T f text b, is_int b -> len text < INT_MAX ->
  (forall j, json_parse T text = Ok j -> tame b j) ->
  (forall name c, fs_read f name = Some c -> len c <= INT_MAX /\ well_cut c) ->
  returns_or_throws (disc_of_text T f text) /\ returns_or_throws (wisard_of_text T f text) /\ returns_or_throws (clus_of_text T f text).
Proof.
  intros T f text b Hb Ht Hj Hf. assert (Hfine : forall A (r : res A), fine (fun _ => False) r -> returns_or_throws r).
  { intros A r H. unfold returns_or_throws. destruct r as [a|e|u|]; [left; eauto|right; eauto|contradiction|contradiction]. }
  assert (Hff : files_ok (fun _ => False) f) by (intros name c E; destruct (Hf _ _ E); auto).
  unfold disc_of_text, wisard_of_text, clus_of_text.
  destruct (parse_ends T text) as [[j E]|[E|E]]; rewrite E; cbn [rbind]; try (split; [|split]; right; eauto; fail).
  pose proof (Hj j E) as Htame. apply json_parse_short in E. apply (gt_none b) in E; [|exact Hb|lia|exact Htame].
  split; [|split]; apply Hfine; [eapply disc_fine|eapply wisard_fine|eapply clus_fine]; eassumption.
Qed.
Print Assumptions C108_tame_partial.
(** Such a text: a discriminator of base 3, two RAMs with contents, and a number with a fraction. It gives an object. *)
Definition tame_text : str :=
  lit "{""base"":3,""count"":1.5,""data"":""BQAAAAAAAAABAAAA.AQAAAAAAAAABAAAABgAAAAAAAAABAAAA"",""entrySize"":5,""ignoreZero"":true,""mapping"":[[0,2,4],[1,3]],""version"":""1.6.3""}".
Example C108_tame_witness : (forall j, json_parse strtod_even tame_text = Ok j -> tame 3 j) /\ is_int 3 /\ len tame_text < INT_MAX /\
  exists d, disc_of_text strtod_even (Fs ∅ (fun _ => true)) tame_text = Ok d /\ d_count d = 1 /\ length (d_rams d) = 2%nat.
Proof.
  split.
  - intros j Hj. assert (E : exists j, json_parse strtod_even tame_text = Ok j /\ tame 3 j).
    { eexists. split; [vm_compute; reflexivity|].
      assert (fits 3 2) by (right; vm_compute; split; congruence). assert (fits 3 3) by (right; vm_compute; split; congruence).
      apply Tame_obj; [|intros s Hs; repeat (apply elem_of_cons in Hs as [Hs|Hs]; [try discriminate Hs|])|intros v Hv; repeat (apply elem_of_cons in Hv as [Hv|Hv]; [try discriminate Hv|])].
      - repeat (apply Forall_cons; split); [..|apply Forall_nil; exact I]; left; cbn [snd];
          repeat first [apply Tame_bool|apply Tame_int|apply Tame_str|apply Tame_float|apply Tame_arr|apply Forall_nil; exact I|apply Forall_cons; split|assumption].
        eexists. split; [vm_compute; reflexivity|vm_compute; split; congruence].
      - injection Hs as ->. apply well_cut_by_cut. vm_compute. reflexivity.
      - inversion Hs.
      - injection Hv as ->. left. reflexivity.
      - inversion Hv. }
    destruct E as (j' & E & H). rewrite Hj in E. injection E as ->. exact H.
  - split; [unfold is_int, INT_MIN, INT_MAX; lia|]. split; [vm_compute; reflexivity|].
    eexists. split; [vm_compute; reflexivity|]. split; vm_compute; reflexivity.
Qed.
