(** Property theorems C147, C148: which texts the constructors that take a JSON text read, and as what. The grammar is in
    SpecGrammar.v; [T] is strtod. *)
From Coq Require Import SpecFloat QArith Qcanon.
From Verif Require Import Prelude Bytes Base64 Utils Float32 BinInput Bleaching Ram Json Fs RamData Disc Wisard Cluster ClusWisard JsonText TextApi.
From Verif Require Import SpecBin SpecDisc SpecBleach SpecWisard SpecSaved SpecCluster SpecClus SpecLaw SpecClusSaved SpecText SpecGrammar.
From Verif Require Import DiscCtorProofs CtorFacts DiscFacts PropsDisc PropsWisard PropsCluster PropsClus JsonFacts WisardSaved ClusSaved PropsJson PropsClusJson.
From Verif Require Import TextNumber TextParse TextTotal TextPrefix TextApiProofs TextFacts Nearest PropsText.
From Verif Require Import SpecUtf8 Utf8Proofs GrammarLex GrammarProofs GrammarSound.
Local Open Scope Z_scope.

(** C147: a JSON text is read as the value it stands for, so two texts of one value give the same object (or exception). *)
Theorem C147_value : forall T text j, json_text T text j -> json_parse T text = Ok j.
Proof.
  intros T text j H. apply parse_accepted. exists [], text, []. split; [rewrite app_nil_r; reflexivity|]. auto.
Qed.
Print Assumptions C147_value.
Theorem C147_same : forall T text text' j, json_text T text j -> json_text T text' j -> forall f,
  disc_of_text T f text = disc_of_text T f text' /\ wisard_of_text T f text = wisard_of_text T f text' /\ clus_of_text T f text = clus_of_text T f text'.
Proof. intros T text text' j H H' f. apply C147_value in H, H'. unfold disc_of_text, wisard_of_text, clus_of_text. rewrite H, H'. auto. Qed.
Print Assumptions C147_same.
(** The texts that json() and jsonConfig() write are JSON texts; whoever writes the same value down differently gets the same object back. *)
Definition may_be_rewritten {A} (T : numtext) (make : fs -> str -> res A) (text : str) : Prop :=
  exists j, json_text T text j /\ forall text' f, json_text T text' j -> make f text' = make f text.
Lemma written_text T text : written T text -> exists j, json_text T text j.
Proof.
  intros Hw. assert (Hp : exists j, json_parse T text = Ok j).
  { destruct Hw as (pr & st & j & Hj & Hc & Ht). pose proof (dump_parse T pr st j Hj) as H. rewrite Ht in H. cbn [rbind] in H. rewrite H.
    pose proof (all_faithful T pr st j Hj 0%nat) as Hf. destruct (retext j) as [j'|e|u|]; [eauto|congruence|contradiction|contradiction]. }
  destruct Hp as [j Hp]. pose proof (proj1 (parse_accepted T text j) Hp) as (b & t & tail & E & Hb & Ht & Htl).
  assert (Htail : tail = []).
  { destruct Htl as [->|[g ->]]; [reflexivity|]. exfalso. rewrite app_assoc in E. destruct (written_truncated T text (b ++ t) (to_char 0 :: g) Hw E ltac:(discriminate)) as [e He].
    assert (Ha : accepted T (b ++ t) j) by (exists b, t, []; rewrite app_nil_r; auto). apply parse_accepted in Ha. congruence. }
  subst tail. rewrite app_nil_r in E. destruct Hb as [->| ->]; [cbn [app] in E; subst text; eauto|].
  destruct Hw as (pr & st & j0 & _ & Hc & Hd). destruct (dump_composite T pr st 0 j0 text Hc Hd) as (c & s & -> & H & _). exfalso. injection E as -> _. apply H. reflexivity.
Qed.
Lemma rewritten T {A} (make : fs -> json -> res A) text : written T text -> may_be_rewritten T (fun f t => let* j := json_parse T t in make f j) text.
Proof. intros H. destruct (written_text T text H) as [j Hj]. exists j. split; [exact Hj|]. intros text' f Ht. apply C147_value in Hj, Ht. rewrite Hj, Ht. reflexivity. Qed.
Theorem C147_saved : forall T iter rnd f huge path,
  (forall d text f', int_disc d -> disc_json_text iter rnd f d huge path = (Ok text, f') \/ disc_jsonConfig_text d = Ok text ->
     may_be_rewritten T (disc_of_text T) text) /\
  (forall wrnd w text f', int_wisard w -> wisard_json_text iter wrnd f w huge path = (Ok text, f') \/ wisard_jsonConfig_text w = Ok text ->
     may_be_rewritten T (wisard_of_text T) text) /\
  (forall krnd urnd k text f', int_clus k -> correct_strtod T ->
     clus_json_text iter krnd urnd f k huge path = (Ok text, f') \/ clus_jsonConfig_text k = Ok text -> may_be_rewritten T (clus_of_text T) text).
Proof.
  intros T iter rnd f huge path. split; [|split].
  - intros d text f' Hd Ht. apply (rewritten T disc_of_json). destruct Ht as [Ht|Ht]; [eapply disc_written|eapply disc_config_written]; eassumption.
  - intros wrnd w text f' Hd Ht. apply (rewritten T wisard_of_json). destruct Ht as [Ht|Ht]; [eapply wisard_written|eapply wisard_config_written]; eassumption.
  - intros krnd urnd k text f' Hd HT Ht. apply (rewritten T clus_of_json). destruct Ht as [Ht|Ht]; [eapply clus_written|eapply clus_config_written]; eassumption.
Qed.
Print Assumptions C147_saved.
(** In particular a trained discriminator is read back from every JSON text of the value it was saved as. *)
Theorem C147_reload : forall T iter rnd f path d0 h d,
  good_iter iter -> constructed d0 -> Forall (Forall is_int) (disc_mapping d0) ->
  all_valid d0 h -> len h <= INT_MAX -> run d0 h = (Ok tt, d) -> (exists x, Train x ∈ h) -> saved_size d <= INT_MAX + 1 ->
  exists text j, disc_json_text iter rnd f d false path = (Ok text, f) /\ json_text T text j /\
    forall text' f', json_text T text' j -> disc_of_text T f' text' = Ok d.
Proof.
  intros T iter rnd f path d0 h d Hi Hc Hm Hv Hl E Hx Hs. destruct (C107_discriminator T iter rnd f path d0 h d Hi Hc Hm Hv Hl E Hx Hs) as (text & Ht & HR).
  assert (Hd : int_disc d).
  { pose proof (run_inv d0 h d Hc Hv Hl E) as Ha. destruct (constructed_uniform d0 Hc) as (iz & base & Hu).
    apply (storable_int iter). eapply after_storable; eauto using constructed_fresh. }
  destruct (proj1 (C147_saved T iter rnd f false path) d text f Hd (or_introl Ht)) as (j & Hj & HJ). exists text, j. split; [exact Ht|]. split; [exact Hj|].
  intros text' f' Ht'. rewrite (HJ text' f' Ht'). apply HR.
Qed.
Print Assumptions C147_reload.
Theorem C147_wisard : forall T iter rnd lhs_first w0 n cs w f path,
  good_iter iter -> w_discriminators w0 = ∅ -> configured w0 n -> Forall (proper_call w0 n) cs ->
  len (all_examples cs) <= INT_MAX -> int_options w0 -> some_rams w0 -> wrun lhs_first w0 cs = (Ok tt, w) ->
  (forall l d, w_discriminators w !! l = Some d -> is_utf8 l /\ saved_size d <= INT_MAX + 1) ->
  exists text j, wisard_json_text iter rnd f w false path = (Ok text, f) /\ json_text T text j /\
    forall text' f', json_text T text' j -> wisard_of_text T f' text' = Ok (without_mapping w).
Proof.
  intros T iter rnd lhs w0 n cs w f path Hi H0 Hc Hp Hm Ho Hs E Hlab.
  destruct (C107_wisard T iter rnd lhs w0 n cs w f path Hi H0 Hc Hp Hm Ho Hs E Hlab) as (text & Ht & HR).
  destruct (reach_savable iter lhs w0 n cs w Hi H0 Hc Hp Hm Ho Hs E) as [Hsv Hio]; [intros l d El; apply (Hlab l d El)|].
  destruct (proj1 (proj2 (C147_saved T iter [] f false path)) rnd w text f (savable_int iter w Hio Hsv) (or_introl Ht)) as (j & Hj & HJ).
  exists text, j. split; [exact Ht|]. split; [exact Hj|]. intros text' f' Ht'. rewrite (HJ text' f' Ht'). apply HR.
Qed.
Print Assumptions C147_wisard.
Theorem C147_cluswisard : forall T iter rnd urnd lhs_first k0 n cs k f path,
  good_iter iter -> k_clusters k0 = ∅ -> k_unsupervised k0 = cluster_default -> configured_for k0 n -> int_koptions k0 ->
  Forall (proper_kcall k0 n) cs -> len (all_events cs) <= INT_MAX - 2 -> krun lhs_first k0 cs = (Ok tt, k) ->
  (forall l c, k_clusters k !! l = Some c -> is_utf8 l /\ small_cluster c) -> correct_strtod T ->
  exists text j, clus_json_text iter rnd urnd f k false path = (Ok text, f) /\ json_text T text j /\
    forall text' f', json_text T text' j -> clus_of_text T f' text' = Ok (without_search k).
Proof.
  intros T iter rnd urnd lhs k0 n cs k f path Hi H0 Hu Hcf Hio Hp Hl Hr Hlab HT.
  destruct (C107_cluswisard T iter rnd urnd lhs k0 n cs k f path Hi H0 Hu Hcf Hio Hp Hl Hr Hlab HT) as (text & Ht & HR).
  assert (Hs : saved_state iter k n) by (eapply reach_saved; eauto; intros l c Hc; apply (Hlab l c Hc)).
  assert (Hn : is_int n).
  { destruct Hcf as ((_ & Ha & H & _) & _). unfold is_int, INT_MIN, INT_MAX in *. lia. }
  destruct (proj2 (proj2 (C147_saved T iter [] f false path)) rnd urnd k text f (saved_state_int iter k n Hn Hs) HT (or_introl Ht)) as (j & Hj & HJ).
  exists text, j. split; [exact Ht|]. split; [exact Hj|]. intros text' f' Ht'. rewrite (HJ text' f' Ht'). apply HR.
Qed.
Print Assumptions C147_cluswisard.
(** The order of the members of an object does not matter when their names differ, and a text has at most one value. *)
Lemma first_named_elem k v (ms : list (str * json)) : NoDup ms.*1 -> first_named k ms = Some v <-> (k, v) ∈ ms.
Proof.
  induction ms as [|[k' v'] ms IH]; intros H; [split; [discriminate|intros Hi; inversion Hi]|]. rewrite fmap_cons in H. apply NoDup_cons in H as [Hn H]. cbn [first_named fst] in *.
  rewrite elem_of_cons. destruct (decide (k' = k)) as [->|N].
  - split; [intros [= ->]; left; reflexivity|]. intros [[= ->]|Hi]; [reflexivity|]. exfalso. apply Hn. apply elem_of_list_fmap. exists (k, v). auto.
  - rewrite IH by exact H. split; [auto|]. intros [[= -> ->]|Hi]; [congruence|exact Hi].
Qed.
Theorem C147_order : forall T t t' ms ms' l, members T t ms -> members T t' ms' -> Permutation ms ms' -> NoDup ms.*1 ->
  value T (lit "{" ++ t ++ lit "}") (JObj l) -> value T (lit "{" ++ t' ++ lit "}") (JObj l).
Proof.
  intros T t t' ms ms' l Hm Hm' HP Hn Hv.
  assert (E : l = emplaced [] ms).
  { assert (Hv2 : value T (lit "{" ++ t ++ lit "}") (JObj (emplaced [] ms))) by (apply (value_object T t ms); [exact Hm|apply emplaced_object]).
    assert (HJ : forall j, value T (lit "{" ++ t ++ lit "}") j -> json_parse T (lit "{" ++ t ++ lit "}") = Ok j).
    { intros j Hj. apply C147_value. exists [], (lit "{" ++ t ++ lit "}"), []. split; [rewrite app_nil_r; reflexivity|]. split; [constructor|]. split; [exact Hj|constructor]. }
    apply HJ in Hv, Hv2. congruence. }
  subst l. apply (value_object T t' ms'); [exact Hm'|]. destruct (emplaced_object ms) as [H1 H2]. split; [exact H1|]. intros k. rewrite H2.
  assert (Hn' : NoDup ms'.*1) by (rewrite <- HP; exact Hn).
  destruct (first_named k ms) as [v|] eqn:A.
  - symmetry. apply first_named_elem; [exact Hn'|]. rewrite <- HP. apply first_named_elem; assumption.
  - destruct (first_named k ms') as [v|] eqn:B; [|reflexivity]. exfalso. apply first_named_elem in B; [|exact Hn']. rewrite <- HP in B. apply first_named_elem in B; [|exact Hn]. congruence.
Qed.
Print Assumptions C147_order.
Theorem C147_unique : forall T text j j', json_text T text j -> json_text T text j' -> j = j'.
Proof. intros T text j j' H H'. apply C147_value in H, H'. congruence. Qed.
Print Assumptions C147_unique.

(** C148 is false: behind a zero byte anything is accepted. *)
Lemma not_text T text : (forall j, json_parse T (lit "[" ++ text ++ lit "]") <> Ok j) -> forall j, ~ json_text T text j.
Proof.
  intros H j (a & t & b & -> & Ha & Hv & Hb). apply (H (JArr [j])). apply C147_value. exists [], (lit "[" ++ (a ++ t ++ b) ++ lit "]"), [].
  split; [rewrite app_nil_r; reflexivity|]. split; [constructor|]. split; [|constructor]. apply value_array, elements_one; assumption.
Qed.
Theorem C148_refuted : forall T, exists text j, json_parse T text = Ok j /\ forall j', ~ json_text T text j'.
Proof.
  intros T. exists (lit "{}" ++ to_char 0 :: lit "garbage"), (JObj []). split; [reflexivity|]. apply not_text. intros j H. vm_compute in H. discriminate H.
Qed.
Print Assumptions C148_refuted.
(** What holds: these are exactly the texts that are read - a JSON text, after an optional byte order mark, before nothing or a zero byte with
    anything behind it - and every other text makes the three constructors throw. *)
Theorem C148_exact_partial : forall T text j, json_parse T text = Ok j <-> accepted T text j.
Proof. exact parse_accepted. Qed.
Print Assumptions C148_exact_partial.
Theorem C148_plain_partial : forall T text, to_char 0 ∉ text -> (forall s, text <> bom ++ s) ->
  (forall j, json_parse T text = Ok j <-> json_text T text j) /\
  ((forall j, ~ json_text T text j) -> exists e, (e = EJsonParse \/ e = EJsonRange) /\
     forall f, disc_of_text T f text = Throw e /\ wisard_of_text T f text = Throw e /\ clus_of_text T f text = Throw e).
Proof.
  intros T text H0 Hb.
  assert (HI : forall j, json_parse T text = Ok j <-> json_text T text j).
  { intros j. split; [|apply C147_value]. intros H. apply parse_accepted in H as (b & t & tail & -> & [->| ->] & Ht & Htl).
    - destruct Htl as [->|[g ->]]; [rewrite app_nil_r; exact Ht|]. exfalso. apply H0. rewrite !elem_of_app. right. right. left.
    - exfalso. eapply Hb. reflexivity. }
  split; [exact HI|]. intros HN. destruct (C108_parse_partial T text) as [[j E]|(e & He & _ & HT)]; [|exists e; auto]. exfalso. apply (HN j), HI, E.
Qed.
Print Assumptions C148_plain_partial.
Theorem C148_throws_partial : forall T text, (forall j, ~ accepted T text j) -> exists e, (e = EJsonParse \/ e = EJsonRange) /\
  forall f, disc_of_text T f text = Throw e /\ wisard_of_text T f text = Throw e /\ clus_of_text T f text = Throw e.
Proof. intros T text HN. destruct (C108_parse_partial T text) as [[j E]|(e & He & _ & HT)]; [|exists e; auto]. exfalso. apply (HN j), parse_accepted, E. Qed.
Print Assumptions C148_throws_partial.

(** The text of C107_text written down by hand: other order, white space, escapes, one member twice. *)
Definition by_hand : str := lit " { ""version"": ""1.6.\u0033"", ""mapping"" :[[0 ,2,4 ], [1,3]],
  ""ba\u0073e"": 3, ""count"": 1, ""base"": 7, ""entrySize"" : 5,
  ""data"": ""BQAAAAAAAAABAAAA.AQAAAAAAAAABAAAABgAAAAAAAAABAAAA"", ""ignoreZero"":true}
".
Lemma plain_check T text j : bool_decide (to_char 0 ∈ text) = false -> bool_decide (take 3 text = bom) = false -> json_parse T text = Ok j -> json_text T text j.
Proof.
  intros H0 Hb. apply C148_plain_partial; [apply (bool_decide_eq_false_1 _ H0)|]. intros s ->. apply bool_decide_eq_false_1 in Hb. apply Hb. reflexivity.
Qed.
Example C147_witness : (exists j, json_text T0 by_hand j /\ (let* t := fst (disc_json_text it0 [] disk told false []) in json_parse T0 t) = Ok j) /\
  int_disc told /\ disc_of_text T0 disk by_hand = Ok told.
Proof.
  assert (H : exists j, json_text T0 by_hand j /\ (let* t := fst (disc_json_text it0 [] disk told false []) in json_parse T0 t) = Ok j).
  { eexists. split; [apply plain_check; vm_compute; reflexivity|]. rewrite C107_text. vm_compute. reflexivity. }
  split; [exact H|]. split; [apply C109_witness|].
  destruct H as (j & Hj & Ej).
  destruct (C147_reload T0 it0 [] disk [] demo story told) as (t & j' & Et & Hj' & HR); [apply it0_good|apply demo_constructed|apply demo_ints|apply demo_history|vm_compute; congruence|apply demo_history|exists img1; left|vm_compute; congruence|].
  apply HR. rewrite Et in Ej. cbn [fst rbind] in Ej. apply C147_value in Hj'. rewrite Hj' in Ej. injection Ej as ->. exact Hj.
Qed.
Example C147_order_witness : members T0 (lit """b"":1,""a"":2") [(lit "b", JInt 1); (lit "a", JInt 2)].
Proof.
  assert (Hn : forall n : Z, forall c, byte c = 48 + n -> 0 < n < 10 -> value T0 [c] (JInt n)).
  { intros n c Hc Hb. apply value_number. assert (E : natural [c] = n) by (unfold natural; cbn [fold_left]; lia).
    pose proof (number_int T0 [] [c] (or_introl eq_refl)) as G. cbv zeta in G. rewrite decide_False in G by discriminate. rewrite E in G. apply G; [|lia].
    split; [constructor; [unfold is_number_digit; lia|constructor]|]. right. exists c, []. split; [reflexivity|]. intros ->. change (48 = 48 + n) in Hc. lia. }
  assert (Hp : forall cp, 97 <= cp <= 98 -> chars (utf8 cp) (utf8 cp)).
  { intros cp H. pose proof (chars_plain cp [] []) as G. rewrite !app_nil_r in G. apply G; try (unfold scalar; lia). constructor. }
  apply (members_more T0 [] (lit "b") (lit "b") [] [] (lit "1") (JInt 1) [] (lit """a"":2") [(lit "a", JInt 2)]); try exact (Forall_nil_2 _).
  - apply (Hp 98). lia.
  - apply (Hn 1); [reflexivity|lia].
  - apply (members_one T0 [] (lit "a") (lit "a") [] [] (lit "2") (JInt 2) []); try exact (Forall_nil_2 _); [apply (Hp 97); lia|apply (Hn 2); [reflexivity|lia]].
Qed.
Example C148_witness : to_char 0 ∉ by_hand /\ (forall s, by_hand <> bom ++ s) /\ (forall j, ~ json_text T0 (lit "[1,2") j) /\ (forall j, ~ json_text T0 (lit "{""a"":01}") j) /\
  (forall j, ~ json_text T0 (lit "[1,]") j) /\ accepted T0 (bom ++ lit "[] ") (JArr []).
Proof.
  split; [apply (bool_decide_eq_false_1 (to_char 0 ∈ by_hand)); vm_compute; reflexivity|]. split; [intros s E; discriminate E|].
  split; [apply not_text; intros j H; vm_compute in H; discriminate|]. split; [apply not_text; intros j H; vm_compute in H; discriminate|].
  split; [apply not_text; intros j H; vm_compute in H; discriminate|]. apply parse_accepted. reflexivity.
Qed.
