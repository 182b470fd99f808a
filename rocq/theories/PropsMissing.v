(** Property theorem C123: files that are not there. *)
From Verif Require Import Prelude Bytes Base64 BinInput Fs Json Ram RamData Disc DataSet.
From Verif Require Import SpecDisc BytesProofs RamDataProofs DataSetProofs JsonProofs CrashProofs.

(** C123 is false: a missing file is taken for an empty one. A data set, a RAMDataHandle and a
    discriminator loaded from a file that is not there are empty, without an exception... *)
Theorem C123_missing_file_refuted :
  let f0 := Fs ∅ (fun _ => true) in
  let config := jobject [(lit "base", JInt 2); (lit "count", JInt 3); (lit "data", JStr (lit "lost.wdpkg")); (lit "entrySize", JInt 2);
                         (lit "ignoreZero", JBool false); (lit "mapping", jintss [[0; 1]])] in
  ds_load f0 (lit "lost.wpkds") = Ok ds_empty /\ handle_of_text f0 (lit "lost.wdpkg") = Ok ∅ /\ disc_of_json f0 config = Ok (Disc 2 3 []).
Proof. cbv zeta. split; [|split]; vm_compute; reflexivity. Qed.
Print Assumptions C123_missing_file_refuted.
(** ... in general: data sets. Names without the suffix are refused, names with the suffix that cannot
    be read give the empty data set. *)
Theorem C123_missing_dataset_partial : forall f name, len name < W64 ->
  (len name < 6 -> ds_load f name = Throw EOutOfRange) /\
  (6 <= len name -> (forall p, name <> p ++ lit ".wpkds") -> ds_load f name = Throw (EWisard "Invalid extension type!")) /\
  (forall p, name = p ++ lit ".wpkds" -> fs_read f name = None -> ds_load f name = Ok ds_empty /\ ds_size ds_empty = 0).
Proof.
  intros f name Hn. unfold ds_load. split; [|split].
  - intros H. rewrite has_suffix_short; [reflexivity|change (len dataset_sufix) with 6; lia|reflexivity].
  - intros H Hp. rewrite has_suffix_long by (change (len dataset_sufix) with 6; lia). cbn [rbind].
    destruct (bool_decide_reflect (drop (Z.to_nat (len name - len dataset_sufix)) name = dataset_sufix)) as [E|_]; [|reflexivity].
    exfalso. apply (Hp (take (Z.to_nat (len name - len dataset_sufix)) name)). change (lit ".wpkds") with dataset_sufix. rewrite <- E at 2. symmetry. apply take_drop.
  - intros p -> Hr. change (lit ".wpkds") with dataset_sufix in *. rewrite has_suffix_app by exact Hn. cbn [rbind negb]. rewrite Hr. split; reflexivity.
Qed.
Print Assumptions C123_missing_dataset_partial.
(** A handle on a missing file is empty. *)
Theorem C123_missing_handle_partial : forall f p, len (p ++ lit ".wdpkg") < W64 -> fs_read f (p ++ lit ".wdpkg") = None ->
  handle_of_text f (p ++ lit ".wdpkg") = Ok ∅.
Proof.
  intros f p Hn Hr. change (lit ".wdpkg") with ramdata_sufix in *. unfold handle_of_text. rewrite has_suffix_app by exact Hn. cbn [rbind]. rewrite Hr. reflexivity.
Qed.
Print Assumptions C123_missing_handle_partial.
(** A discriminator whose file is missing has no RAMs: it answers every image of the right size with no
    votes at all, and never raises for it. Missing in C123: the exception, which is never raised. *)
Theorem C123_missing_discriminator_partial : forall f config p es n m iz b, len (p ++ lit ".wdpkg") < W64 ->
  jfield config (lit "entrySize") = Ok (JInt es) -> is_int es -> jfield config (lit "count") = Ok (JInt n) -> is_int n ->
  jfield config (lit "data") = Ok (JStr (p ++ lit ".wdpkg")) -> jfield config (lit "mapping") = Ok m ->
  jfield config (lit "ignoreZero") = Ok iz -> jfield config (lit "base") = Ok b ->
  fs_read f (p ++ lit ".wdpkg") = None ->
  exists d, disc_of_json f config = Ok d /\
    (forall im, im_size im = es -> disc_classify d im = Ok []) /\
    (n < INT_MAX -> forall im, im_size im = es -> fst (disc_train d im) = Ok tt).
Proof.
  intros f config p es n m iz b Hn E1 I1 E2 I2 E3 E4 E5 E6 Hr. change (lit ".wdpkg") with ramdata_sufix in *.
  exists (Disc es n []). split; [|split].
  - unfold disc_of_json. rewrite E1, E2, E3, E4, E5, E6. cbn [rbind jget_int jget_str]. unfold setRAMsData.
    rewrite has_suffix_app by exact Hn. cbn [rbind]. rewrite Hr. cbn [rbind]. rewrite !s32_id by assumption. reflexivity.
  - intros im <-. unfold disc_classify, checkEntrySize. cbn [d_entrySize d_rams]. rewrite s32_id by exact I1. rewrite Z.eqb_refl. reflexivity.
  - intros Hlt im <-. unfold disc_train, checkEntrySize. cbn [d_entrySize d_rams d_count]. rewrite s32_id by exact I1. rewrite Z.eqb_refl.
    unfold int_of, in_int. unfold is_int, INT_MIN, INT_MAX in *. destruct (Z.leb_spec (-2147483648) (n + 1)); [|lia]. destruct (Z.leb_spec (n + 1) 2147483647); [|lia]. reflexivity.
Qed.
Print Assumptions C123_missing_discriminator_partial.
Example C123_witness : let f0 := Fs ∅ (fun _ => true) in
  let config := jobject [(lit "base", JInt 2); (lit "count", JInt 3); (lit "data", JStr (lit "lost" ++ lit ".wdpkg")); (lit "entrySize", JInt 2);
                         (lit "ignoreZero", JBool false); (lit "mapping", jintss [[0; 1]])] in
  exists d, disc_of_json f0 config = Ok d /\ forall im, im_size im = 2 -> disc_classify d im = Ok [].
Proof.
  cbv zeta. match goal with |- context [disc_of_json ?f ?c] => destruct (C123_missing_discriminator_partial f c (lit "lost") 2 3 (jintss [[0; 1]]) (JBool false) (JInt 2)) as (d & E & C & _) end;
    [reflexivity| |unfold is_int, INT_MIN, INT_MAX; lia| |unfold is_int, INT_MIN, INT_MAX; lia|..|exists d; split; [exact E|exact C]]; vm_compute; reflexivity.
Qed.
