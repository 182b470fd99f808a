(** Property theorems C114 and C115: which labels can be saved, and what a read text holds. Vocabulary: SpecUtf8.v, SpecText.v. *)
From Coq Require Import SpecFloat QArith Qcanon.
From Verif Require Import Prelude Bytes Utils Float32 BinInput Bleaching Ram Json Fs RamData Disc Wisard Cluster ClusWisard JsonText TextApi.
From Verif Require Import SpecBin SpecDisc SpecWisard SpecClus SpecSaved SpecText SpecUtf8 TextString TextParse TextTotal Utf8Proofs ParseValues LabelProofs Nearest.
From Verif Require Import PropsDisc PropsWisard PropsJson PropsText.
Local Open Scope Z_scope.

(** C114: a string is saved if and only if it is UTF-8; otherwise an exception is thrown. *)
Theorem C114_string : forall s,
  (is_utf8 s -> exists t, json_dump (JStr s) = Ok t) /\ (~ is_utf8 s -> json_dump (JStr s) = Throw EJsonType).
Proof.
  intros s. unfold json_dump. cbn [dump_at]. rewrite quote_eq. rewrite <- utf8_ok_iff. destruct (utf8_ok s); split; intros H; eauto; congruence.
Qed.
Print Assumptions C114_string.
(** So json() and jsonConfig() of a classifier give a text only if all its labels are UTF-8 (C107 is the converse). *)
Theorem C114_labels : forall iter huge path f,
  (forall rnd w text, fst (wisard_json_text iter rnd f w huge path) = Ok text \/ wisard_jsonConfig_text w = Ok text ->
     forall l, is_Some (w_discriminators w !! l) -> is_utf8 l) /\
  (forall rnd urnd k text, fst (clus_json_text iter rnd urnd f k huge path) = Ok text -> forall l, is_Some (k_clusters k !! l) -> is_utf8 l).
Proof.
  intros iter huge path f. split.
  - intros rnd w text [H|H] l Hl; apply utf8_ok_iff; [eapply wisard_label_written|eapply wisard_label_config]; eassumption.
  - intros rnd urnd k text H l Hl. apply utf8_ok_iff. eapply clus_label_written; eassumption.
Qed.
Print Assumptions C114_labels.
(** The label é (one code point, two bytes); half of it; a surrogate; an overlong zero. *)
Example C114_witness : encode 233 = [195; 169] /\ is_utf8 [to_char 195; to_char 169] /\ ~ is_utf8 [to_char 195] /\ ~ is_utf8 [to_char 237; to_char 160; to_char 128] /\
  ~ is_utf8 [to_char 192; to_char 128] /\
  fst (wisard_json_text it0 (fun _ => []) disk (snd (wrun true cfg [CTrain env0 [w1] [[to_char 195]]])) false []) = Throw EJsonType /\
  w_discriminators (snd (wrun true cfg [CTrain env0 [w1] [[to_char 195]]])) !! [to_char 195] <> None.
Proof.
  split; [reflexivity|]. split; [apply utf8_ok_iff; reflexivity|]. rewrite <- !utf8_ok_iff. repeat (split; [vm_compute; congruence|]). vm_compute. congruence.
Qed.

(** C115: whatever value is read from a text can be written again, and that text reads as the same value. *)
Theorem C115_rewritten : forall T text j, correct_strtod T -> returns_double T -> json_parse T text = Ok j ->
  (exists t, json_dump j = Ok t /\ json_parse T t = Ok j) /\ (exists t, json_dump2 j = Ok t /\ json_parse T t = Ok j).
Proof. intros T text j HT HD H. apply C107_json; [exact HT|]. eapply json_parse_text; eassumption. Qed.
Print Assumptions C115_rewritten.
(** In particular the labels of a loaded classifier are UTF-8: they will not keep it from being saved again. *)
Theorem C115_labels : forall T f text, returns_double T ->
  (forall w l, wisard_of_text T f text = Ok w -> is_Some (w_discriminators w !! l) -> is_utf8 l) /\
  (forall k l, clus_of_text T f text = Ok k -> is_Some (k_clusters k !! l) -> is_utf8 l).
Proof.
  intros T f text HD. split.
  - intros w l H Hl. unfold wisard_of_text in H. destruct (json_parse T text) as [j| | |] eqn:E; try discriminate. cbn [rbind] in H.
    apply utf8_ok_iff. eapply wisard_label_loaded; [|exact H|exact Hl]. eapply json_parse_text; eassumption.
  - intros k l H Hl. unfold clus_of_text in H. destruct (json_parse T text) as [j| | |] eqn:E; try discriminate. cbn [rbind] in H.
    apply utf8_ok_iff. eapply clus_label_loaded; [|exact H|exact Hl]. eapply json_parse_text; eassumption.
Qed.
Print Assumptions C115_labels.
(** An escaped pair of surrogates and a repeated key. *)
Example C115_witness : correct_strtod T0 /\ returns_double T0 /\
  json_parse T0 (lit "{""b"":""\uD834\uDD1E"", ""a"":[1.50], ""b"":2}") =
    Ok (JObj [(lit "a", JArr [JFloat (S754_finite false 6755399441055744 (-52))]); (lit "b", JStr (to_char <$> [240; 157; 132; 158]))]) /\
  (let* j := json_parse T0 (lit "{""b"":""\uD834\uDD1E"", ""a"":[1.50], ""b"":2}") in json_dump j) =
    Ok (lit "{""a"":[1.5],""b"":""" ++ (to_char <$> [240; 157; 132; 158]) ++ lit """}").
Proof. split; [exact T0_correct|]. split; [exact strtod_even_double|]. split; vm_compute; reflexivity. Qed.
