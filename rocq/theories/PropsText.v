(** Property theorems C107-C110: the saved texts themselves. Vocabulary in SpecText.v; [T] is strtod, which only
    matters for minScore. *)
From Coq Require Import SpecFloat QArith Qcanon.
From Verif Require Import Prelude Bytes Base64 Utils Float32 BinInput Bleaching Ram Json Fs RamData Disc Wisard Cluster ClusWisard JsonText TextApi.
From Verif Require Import SpecBin SpecDisc SpecBleach SpecWisard SpecSaved SpecCluster SpecClus SpecLaw SpecClusSaved SpecText.
From Verif Require Import DiscCtorProofs CtorFacts DiscFacts PropsDisc PropsWisard PropsCluster PropsClus JsonFacts WisardSaved ClusSaved PropsJson PropsClusJson.
From Verif Require Import TextNumber TextParse TextTotal TextPrefix TextApiProofs TextFacts Nearest.
From Verif Require Import SpecUtf8 Utf8Proofs.
Local Open Scope Z_scope.

(** C107: the text of json() is read back by the constructor as C57, C60 and C75 say. *)
Theorem C107_discriminator : forall T iter rnd f path d0 h d,
  good_iter iter -> constructed d0 -> Forall (Forall is_int) (disc_mapping d0) ->
  all_valid d0 h -> len h <= INT_MAX -> run d0 h = (Ok tt, d) -> (exists x, Train x ∈ h) -> saved_size d <= INT_MAX + 1 ->
  exists text, disc_json_text iter rnd f d false path = (Ok text, f) /\ forall f', disc_of_text T f' text = Ok d.
Proof.
  intros T iter rnd f path d0 h d Hi Hc Hm Hv Hl E Hx Hs. destruct (C57_roundtrip iter rnd f path d0 h d Hi Hc Hm Hv Hl E Hx Hs) as (j & Hj & HR).
  assert (Hd : int_disc d).
  { pose proof (run_inv d0 h d Hc Hv Hl E) as Ha. destruct (constructed_uniform d0 Hc) as (iz & base & Hu).
    apply (storable_int iter). eapply after_storable; eauto using constructed_fresh. }
  destruct (disc_text T iter rnd f d false path Hd) as [H1 H2]. destruct (text_ok_of T (Ok []) f _ _ j H1 H2 Hj) as (t & Ht & Hp).
  exists t. split; [exact Ht|]. intros f'. unfold disc_of_text. rewrite Hp. apply HR.
Qed.
Print Assumptions C107_discriminator.
Theorem C107_wisard : forall T iter rnd lhs_first w0 n cs w f path,
  good_iter iter -> w_discriminators w0 = ∅ -> configured w0 n -> Forall (proper_call w0 n) cs ->
  len (all_examples cs) <= INT_MAX -> int_options w0 -> some_rams w0 -> wrun lhs_first w0 cs = (Ok tt, w) ->
  (forall l d, w_discriminators w !! l = Some d -> is_utf8 l /\ saved_size d <= INT_MAX + 1) ->
  exists text, wisard_json_text iter rnd f w false path = (Ok text, f) /\ forall f', wisard_of_text T f' text = Ok (without_mapping w).
Proof. setoid_rewrite <- utf8_ok_iff.
  intros T iter rnd lhs w0 n cs w f path Hi H0 Hc Hp Hm Ho Hs E Hlab.
  destruct (C60_roundtrip iter rnd lhs w0 n cs w f path Hi H0 Hc Hp Hm Ho Hs E (proj1 (labels_utf8 _ _) Hlab)) as (j & Hj & HR).
  destruct (reach_savable iter lhs w0 n cs w Hi H0 Hc Hp Hm Ho Hs E) as [Hsv Hio]; [intros l d El; apply (Hlab l d El)|].
  destruct (wisard_text T iter rnd f w false path (savable_int iter w Hio Hsv)) as [H1 H2]. destruct (text_ok_of T (Ok []) f _ _ j H1 H2 Hj) as (t & Ht & Hpt).
  exists t. split; [exact Ht|]. intros f'. unfold wisard_of_text. rewrite Hpt. apply HR.
Qed.
Print Assumptions C107_wisard.
Theorem C107_cluswisard : forall T iter rnd urnd lhs_first k0 n cs k f path,
  good_iter iter -> k_clusters k0 = ∅ -> k_unsupervised k0 = cluster_default -> configured_for k0 n -> int_koptions k0 ->
  Forall (proper_kcall k0 n) cs -> len (all_events cs) <= INT_MAX - 2 -> krun lhs_first k0 cs = (Ok tt, k) ->
  (forall l c, k_clusters k !! l = Some c -> is_utf8 l /\ small_cluster c) -> correct_strtod T ->
  exists text, clus_json_text iter rnd urnd f k false path = (Ok text, f) /\ forall f', clus_of_text T f' text = Ok (without_search k).
Proof. setoid_rewrite <- utf8_ok_iff.
  intros T iter rnd urnd lhs k0 n cs k f path Hi H0 Hu Hcf Hio Hp Hl Hr Hlab HT.
  destruct (C75_roundtrip_partial iter rnd urnd lhs k0 n cs k f path Hi H0 Hu Hcf Hio Hp Hl Hr (proj1 (labels_utf8 _ _) Hlab)) as (j & Hj & HR).
  assert (Hs : saved_state iter k n) by (eapply reach_saved; eauto; intros l c Hc; apply (Hlab l c Hc)).
  assert (Hn : is_int n).
  { destruct Hcf as ((_ & Ha & H & _) & _). unfold is_int, INT_MIN, INT_MAX in *. lia. }
  destruct (clus_text T iter rnd urnd f k false path (saved_state_int iter k n Hn Hs) HT) as [H1 H2].
  destruct (text_ok_of T (Ok []) f _ _ j H1 H2 Hj) as (t & Ht & Hpt). exists t. split; [exact Ht|]. intros f'. unfold clus_of_text. rewrite Hpt. apply HR.
Qed.
Print Assumptions C107_cluswisard.
(** The same after unsupervised training with base 2. *)
Theorem C107_unsupervised : forall T iter rnd urnd lhs_first env k0 n xs cs k f path,
  good_iter iter -> k_clusters k0 = ∅ -> k_base k0 = 2 -> configured_for k0 n -> int_koptions k0 ->
  (forall i : nat, valid_draw (env i)) -> xs <> [] -> Forall (plain_image 2 n) xs -> len xs <= INT_MAX - 2 ->
  Forall (proper_kcall k0 n) cs -> len (all_events cs) <= INT_MAX - 2 ->
  krun lhs_first k0 (KUnsupervised env xs :: cs) = (Ok tt, k) ->
  (forall l c, k_clusters k !! l = Some c -> is_utf8 l /\ small_cluster c) -> small_cluster (k_unsupervised k) -> correct_strtod T ->
  exists text, clus_json_text iter rnd urnd f k false path = (Ok text, f) /\ forall f', clus_of_text T f' text = Ok (without_search k).
Proof. setoid_rewrite <- utf8_ok_iff.
  intros T iter rnd urnd lhs env k0 n xs cs k f path Hi H0 Hb Hcf Hio Henv Hne HF Hlx Hp Hl Hr Hlab Hsu HT.
  destruct (C75_unsupervised_partial iter rnd urnd lhs env k0 n xs cs k f path Hi H0 Hb Hcf Hio Henv Hne HF Hlx Hp Hl Hr (proj1 (labels_utf8 _ _) Hlab) Hsu) as (j & Hj & HR).
  assert (Hs : saved_state iter k n).
  { unfold krun in Hr. cbn [efor kcall_run] in Hr. destruct (trainUnsupervised lhs env k0 xs) as [[[]| | |] k1] eqn:Et; cbn [ebind] in Hr; try discriminate.
    eapply reach_saved_unsup; eauto. intros l c Hc. apply (Hlab l c Hc). }
  assert (Hn : is_int n).
  { destruct Hcf as ((_ & Ha & H & _) & _). unfold is_int, INT_MIN, INT_MAX in *. lia. }
  destruct (clus_text T iter rnd urnd f k false path (saved_state_int iter k n Hn Hs) HT) as [H1 H2].
  destruct (text_ok_of T (Ok []) f _ _ j H1 H2 Hj) as (t & Ht & Hpt). exists t. split; [exact Ht|]. intros f'. unfold clus_of_text. rewrite Hpt. apply HR.
Qed.
Print Assumptions C107_unsupervised.
(** In any state, with any labels and paths, in memory or in files: parsing the written text gives what the value-level
    functions of C57-C63, C75 and C87 give, or both stop with the same exception; and the same files are written. *)
Theorem C107_values : forall T iter, 
  (forall rnd f d huge path, int_disc d ->
     (let* t := fst (disc_json_text iter rnd f d huge path) in json_parse T t) = fst (disc_json iter rnd f d huge path) /\
     snd (disc_json_text iter rnd f d huge path) = snd (disc_json iter rnd f d huge path) /\
     (let* t := disc_jsonConfig_text d in json_parse T t) = disc_jsonConfig d) /\
  (forall rnd f w huge path, int_wisard w ->
     (let* t := fst (wisard_json_text iter rnd f w huge path) in json_parse T t) = fst (wisard_json iter rnd f w huge path) /\
     snd (wisard_json_text iter rnd f w huge path) = snd (wisard_json iter rnd f w huge path) /\
     (let* t := wisard_jsonConfig_text w in json_parse T t) = wisard_jsonConfig w) /\
  (forall rnd urnd f k huge path, int_clus k -> correct_strtod T ->
     (let* t := fst (clus_json_text iter rnd urnd f k huge path) in json_parse T t) = fst (clus_json iter rnd urnd f k huge path) /\
     snd (clus_json_text iter rnd urnd f k huge path) = snd (clus_json iter rnd urnd f k huge path) /\
     (let* t := clus_jsonConfig_text k in json_parse T t) = clus_jsonConfig k).
Proof.
  intros T iter. split; [|split].
  - intros rnd f d huge path H. destruct (disc_text T iter rnd f d huge path H) as [H1 H2]. split; [exact H1|]. split; [exact H2|apply disc_config_text, H].
  - intros rnd f w huge path H. destruct (wisard_text T iter rnd f w huge path H) as [H1 H2]. split; [exact H1|]. split; [exact H2|apply wisard_config_text, H].
  - intros rnd urnd f k huge path H HT. destruct (clus_text T iter rnd urnd f k huge path H HT) as [H1 H2]. split; [exact H1|]. split; [exact H2|apply clus_config_text; assumption].
Qed.
Print Assumptions C107_values.
(** Nothing of this is special to the values the package writes: every value that has a JSON text is read back from dump() and from dump(2). *)
Lemma has_text_wf T j : correct_strtod T -> has_text j -> json_wf T j /\ retext j = Ok j.
Proof.
  intros HT. induction j using json_rect'; intros Hj; try (split; [exact I|reflexivity]).
  - inversion Hj. split; [|reflexivity]. unfold json_wf, in_json_int, LL_MIN, W64. lia.
  - inversion Hj. split; [split; assumption|]. cbn [retext]. match goal with H : f32_finite _ = true |- _ => rewrite H end. reflexivity.
  - inversion Hj as [| | | |s0 Hs| |]. split; [exact I|]. cbn [retext]. apply utf8_ok_iff in Hs. rewrite Hs. reflexivity.
  - inversion Hj as [| | | | |l0 Hl El|]. clear El l0.
    assert (HF : Forall (json_wf T) l /\ retext_list l = Ok l); [|split; [apply json_wf_arr, HF|rewrite retext_arr, (proj2 HF); reflexivity]].
    clear Hj. induction l as [|x l IHl]; [split; [constructor|reflexivity]|]. apply Forall_cons in H as [Hx H]. apply Forall_cons in Hl as [Tx Hl].
    destruct (Hx Tx) as [W E]. destruct (IHl H Hl) as [W' E']. split; [constructor; assumption|]. cbn [retext_list]. rewrite E. cbn [rbind]. rewrite E'. reflexivity.
  - inversion Hj as [| | | | | |l0 Hs Hk Hl El]. clear El. clear l0.
    assert (HF : Forall (fun kv => json_wf T kv.2) l /\ retext_members l = Ok l); [|split; [apply json_wf_obj; split; [exact Hs|apply HF]|rewrite retext_obj, (proj2 HF); reflexivity]].
    clear Hj Hs. induction l as [|[k x] l IHl]; [split; [constructor|reflexivity]|]. rewrite fmap_cons in Hl. change (Forall is_utf8 (k :: l.*1)) in Hk. apply Forall_cons in H as [Hx H]. apply Forall_cons in Hl as [Tx Hl].
    apply Forall_cons in Hk as [Kx Hk]. cbn [fst snd] in *.
    destruct (Hx Tx) as [W E]. destruct (IHl H Hk Hl) as [W' E']. split; [constructor; assumption|]. cbn [retext_members]. apply utf8_ok_iff in Kx. rewrite Kx, E. cbn [rbind]. rewrite E'. reflexivity.
Qed.
Theorem C107_json : forall T j, correct_strtod T -> has_text j ->
  (exists t, json_dump j = Ok t /\ json_parse T t = Ok j) /\ (exists t, json_dump2 j = Ok t /\ json_parse T t = Ok j).
Proof.
  intros T j HT Hj. destruct (has_text_wf T j HT Hj) as [Hw Hr]. pose proof (dump_parse T false 0 j Hw) as H1. pose proof (dump_parse T true 2 j Hw) as H2. rewrite Hr in H1, H2.
  change (dump_at false 0 0 j) with (json_dump j) in H1. change (dump_at true 2 0 j) with (json_dump2 j) in H2.
  destruct (json_dump j) as [t1| | |]; try discriminate. destruct (json_dump2 j) as [t2| | |]; try discriminate. split; eauto.
Qed.
Print Assumptions C107_json.

(** A strtod that rounds to nearest even meets the hypothesis, and runs. *)
Definition T0 : numtext := strtod_even.
Example T0_correct : correct_strtod T0. Proof. exact strtod_even_correct. Qed.
(** A label with a quotation mark, a backslash, a line feed, a bell and a two byte character. *)
Definition odd : str := [to_char 34; to_char 92; to_char 10; to_char 7; to_char 195; to_char 169].
Definition oddly : wisard := snd (wrun true cfg [CTrain env0 [w1; w2] [hot; odd]]).
Example C107_text : fst (disc_json_text it0 [] disk told false []) =
  Ok (lit "{""base"":3,""count"":1,""data"":""BQAAAAAAAAABAAAA.AQAAAAAAAAABAAAABgAAAAAAAAABAAAA"",""entrySize"":5,""ignoreZero"":true,""mapping"":[[0,2,4],[1,3]],""version"":""1.6.3""}").
Proof. vm_compute. reflexivity. Qed.
(** The discriminator and the Wisard of C57 and C60 meet the hypotheses (C57_witness, C60_witness); so does the ClusWisard of C75 with T0.
    Odd labels are no obstacle. *)
Example C107_witness : is_utf8 odd /\ (sorted_items (w_discriminators oddly)).*1 = [odd; hot] /\
  (let* t := fst (wisard_json_text it0 (fun _ => []) disk oddly false []) in rmap (fun w => (sorted_items (w_discriminators w)).*1) (wisard_of_text T0 disk t)) = Ok [odd; hot] /\
  correct_strtod T0 /\
  (let* t := fst (clus_json_text it0 (fun _ _ => []) (fun _ => []) disk kboth false []) in rmap kcounters (clus_of_text T0 disk t)) = Ok [(ka, [2]); (kb, [2; 1])].
Proof. split; [apply utf8_ok_iff; vm_compute; reflexivity|]. split; [vm_compute; reflexivity|]. split; [vm_compute; reflexivity|]. split; [exact T0_correct|vm_compute; reflexivity]. Qed.

(** C108 is false: a text with a RAM content of a wrong length makes the constructor read outside a string. *)
Theorem C108_total_refuted : forall T f, disc_of_text T f
  (lit "{""entrySize"":2,""count"":0,""data"":""AAAAAAAAAAAAA"",""mapping"":[[0,1]],""ignoreZero"":false,""base"":2}") = UB UBIndex.
Proof. intros T f. vm_compute. reflexivity. Qed.
Print Assumptions C108_total_refuted.
(** What holds: reading the text as JSON always ends, with a value or with one of two exceptions (which the constructors
    pass on), whatever characters it consists of. *)
Theorem C108_parse_partial : forall T text,
  (exists j, json_parse T text = Ok j) \/
  (exists e, (e = EJsonParse \/ e = EJsonRange) /\ json_parse T text = Throw e /\
     forall f, disc_of_text T f text = Throw e /\ wisard_of_text T f text = Throw e /\ clus_of_text T f text = Throw e).
Proof.
  intros T text. destruct (parse_ends T text) as [H|[H|H]]; [left; exact H|right; exists EJsonParse|right; exists EJsonRange]; (split; [auto|]); (split; [exact H|]);
    intros f; unfold disc_of_text, wisard_of_text, clus_of_text; rewrite H; auto.
Qed.
Print Assumptions C108_parse_partial.
Example C108_witness : json_parse T0 (lit "[1,2") = Throw EJsonParse /\ json_parse T0 (lit " {""a"": [-1, true, null]} ") = Ok (JObj [(lit "a", JArr [JInt (-1); JBool true; JNull])]) /\
  json_parse T0 (lit "{""a"":01}") = Throw EJsonParse /\ json_parse T0 [] = Throw EJsonParse.
Proof. split; [vm_compute; reflexivity|]. split; [vm_compute; reflexivity|]. split; vm_compute; reflexivity. Qed.

(** C109: if only the beginning of a saved text (of json() or of jsonConfig()) is left, the constructor throws. *)
Definition refused {A} (make : fs -> str -> res A) (text : str) : Prop :=
  forall p q f, text = p ++ q -> q <> [] -> exists e, make f p = Throw e.
Theorem C109_truncated : forall T iter rnd f huge path,
  (forall d text f', int_disc d -> disc_json_text iter rnd f d huge path = (Ok text, f') \/ disc_jsonConfig_text d = Ok text ->
     refused (disc_of_text T) text) /\
  (forall wrnd w text f', int_wisard w -> wisard_json_text iter wrnd f w huge path = (Ok text, f') \/ wisard_jsonConfig_text w = Ok text ->
     refused (wisard_of_text T) text) /\
  (forall krnd urnd k text f', int_clus k -> correct_strtod T ->
     clus_json_text iter krnd urnd f k huge path = (Ok text, f') \/ clus_jsonConfig_text k = Ok text -> refused (clus_of_text T) text).
Proof.
  intros T iter rnd f huge path.
  assert (H : forall A (make : fs -> json -> res A) text, written T text -> refused (fun f t => let* j := json_parse T t in make f j) text).
  { intros A make text Hw p q f' E Hq. apply throws_bind. exact (written_truncated T text p q Hw E Hq). }
  split; [|split].
  - intros d text f' Hd Ht. apply (H disc disc_of_json). destruct Ht as [Ht|Ht]; [eapply disc_written|eapply disc_config_written]; eassumption.
  - intros wrnd w text f' Hd Ht. apply (H wisard wisard_of_json). destruct Ht as [Ht|Ht]; [eapply wisard_written|eapply wisard_config_written]; eassumption.
  - intros krnd urnd k text f' Hd HT Ht. apply (H cluswisard clus_of_json). destruct Ht as [Ht|Ht]; [eapply clus_written|eapply clus_config_written]; eassumption.
Qed.
Print Assumptions C109_truncated.
Lemma int_disc_check d : forallb (fun z => (INT_MIN <=? z) && (z <=? INT_MAX)) (d_entrySize d :: d_count d :: List.concat ((fun r => r_base r :: r_addresses r) <$> d_rams d)) = true -> int_disc d.
Proof.
  intros H. cbn [forallb] in H. apply andb_true_iff in H as [H1 H]. apply andb_true_iff in H as [H2 H]. split; [unfold is_int; lia|]. split; [unfold is_int; lia|].
  induction (d_rams d) as [|r rs IH]; [constructor|]. rewrite fmap_cons in H. cbn [List.concat] in H. rewrite forallb_app in H. apply andb_true_iff in H as [Hr H].
  cbn [forallb] in Hr. apply andb_true_iff in Hr as [Hb Ha]. constructor; [|apply IH, H]. split; [unfold is_int; lia|].
  apply Forall_forall. intros z Hz. rewrite forallb_forall in Ha. specialize (Ha z (proj1 (elem_of_list_In _ _) Hz)). unfold is_int. lia.
Qed.
Example C109_witness : int_disc told /\ (exists t, disc_json_text it0 [] disk told false [] = (Ok t, disk) /\ length t = 155%nat /\
  disc_of_text T0 disk t = Ok told /\ disc_of_text T0 disk (take 154 t) = Throw EJsonParse).
Proof.
  split; [apply int_disc_check; vm_compute; reflexivity|]. eexists. split; [vm_compute; reflexivity|]. split; [reflexivity|]. split; [|vm_compute; reflexivity].
  destruct (C107_discriminator T0 it0 [] disk [] demo story told) as (t & Et & H); [apply it0_good|apply demo_constructed|apply demo_ints|apply demo_history|vm_compute; congruence|apply demo_history|exists img1; left|vm_compute; congruence|].
  transitivity (disc_of_text T0 disk t); [|apply H]. f_equal. apply (f_equal fst) in Et. cbn [fst] in Et. rewrite C107_text in Et. injection Et as <-. vm_compute. reflexivity.
Qed.

(** C110 is false: a saved text followed by a zero character and anything else is accepted. *)
Theorem C110_appended_refuted : forall r, disc_of_text T0 disk
  (lit "{""base"":3,""count"":1,""data"":""BQAAAAAAAAABAAAA.AQAAAAAAAAABAAAABgAAAAAAAAABAAAA"",""entrySize"":5,""ignoreZero"":true,""mapping"":[[0,2,4],[1,3]],""version"":""1.6.3""}"
    ++ to_char 0 :: r) = Ok told.
Proof.
  intros r. destruct C109_witness as (Hd & t & Et & _ & Hl & _). apply (f_equal fst) in Et. cbn [fst] in Et. rewrite C107_text in Et. injection Et as <-.
  rewrite <- Hl. unfold disc_of_text. f_equal.
Qed.
Print Assumptions C110_appended_refuted.
(** What holds: white space after the text changes nothing, and anything else that does not begin, after white space, with
    a zero character makes the constructor throw. *)
Definition spaces (r : str) : Prop := Forall (fun c => c = to_char 32 \/ c = to_char 9 \/ c = to_char 10 \/ c = to_char 13) r.
Definition appended {A} (make : fs -> str -> res A) (text : str) : Prop :=
  (forall r f, spaces r -> make f (text ++ r) = make f text) /\
  (forall s c r f, spaces s -> c <> to_char 0 -> ~ spaces [c] -> make f (text ++ s ++ c :: r) = Throw EJsonParse).
Lemma spaces_skip s r : spaces s -> skip_space (s ++ r) = skip_space r.
Proof. induction 1 as [|c s Hc Hs IH]; [reflexivity|]. cbn [app skip_space]. destruct Hc as [->|[->|[->| ->]]]; exact IH. Qed.
Lemma appended_written {A} T (make : fs -> json -> res A) text : written T text -> appended (fun f t => let* j := json_parse T t in make f j) text.
Proof.
  intros Hw. split.
  - intros r f Hr. destruct (written_trailing T text r Hw) as [[_ ->]|[H _]]; [reflexivity|]. exfalso. apply H. unfold ignorable.
    pose proof (spaces_skip r [] Hr) as E. rewrite app_nil_r in E. rewrite E. exact I.
  - intros s c r f Hs Hc Hn. destruct (written_trailing T text (s ++ c :: r) Hw) as [[H _]|[_ ->]]; [|reflexivity]. exfalso. unfold ignorable in H.
    rewrite spaces_skip in H by exact Hs. assert (E : is_space c = false).
    { unfold is_space. apply not_true_is_false. intros E. apply Hn. constructor; [|constructor].
      assert (Hb : forall n, byte c = n -> c = to_char n) by (intros n <-; symmetry; apply BytesProofs.to_char_byte).
      repeat (apply orb_true_iff in E; destruct E as [E|E]); apply Z.eqb_eq in E; auto. }
    rewrite skip_nonspace in H by exact E. apply Hc. rewrite <- H. symmetry. apply BytesProofs.to_char_byte.
Qed.
Theorem C110_appended_partial : forall T iter rnd f huge path,
  (forall d text f', int_disc d -> disc_json_text iter rnd f d huge path = (Ok text, f') \/ disc_jsonConfig_text d = Ok text ->
     appended (disc_of_text T) text) /\
  (forall wrnd w text f', int_wisard w -> wisard_json_text iter wrnd f w huge path = (Ok text, f') \/ wisard_jsonConfig_text w = Ok text ->
     appended (wisard_of_text T) text) /\
  (forall krnd urnd k text f', int_clus k -> correct_strtod T ->
     clus_json_text iter krnd urnd f k huge path = (Ok text, f') \/ clus_jsonConfig_text k = Ok text -> appended (clus_of_text T) text).
Proof.
  intros T iter rnd f huge path. split; [|split].
  - intros d text f' Hd Ht. apply (appended_written T disc_of_json). destruct Ht as [Ht|Ht]; [eapply disc_written|eapply disc_config_written]; eassumption.
  - intros wrnd w text f' Hd Ht. apply (appended_written T wisard_of_json). destruct Ht as [Ht|Ht]; [eapply wisard_written|eapply wisard_config_written]; eassumption.
  - intros krnd urnd k text f' Hd HT Ht. apply (appended_written T clus_of_json). destruct Ht as [Ht|Ht]; [eapply clus_written|eapply clus_config_written]; eassumption.
Qed.
Print Assumptions C110_appended_partial.
Example C110_witness : int_disc told /\ spaces [to_char 32; to_char 10] /\ ~ spaces [","%char] /\
  (let* t := fst (disc_json_text it0 [] disk told false []) in disc_of_text T0 disk (t ++ [to_char 32; to_char 10; ","%char])) = Throw EJsonParse.
Proof.
  split; [apply int_disc_check; vm_compute; reflexivity|]. split; [constructor; [auto|constructor; [auto|constructor]]|]. split; [|vm_compute; reflexivity].
  intros H. apply Forall_inv in H. destruct H as [H|[H|[H|H]]]; discriminate H.
Qed.
