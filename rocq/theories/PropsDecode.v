(** Property theorem C118: outcome of Base64::decode on every text. Vocabulary in SpecDecode.v. *)
From Verif Require Import Prelude Bytes Base64 SpecDecode DecodeIff.

(** C118. The four cases exclude each other and cover every text. *)
Theorem C118_decode_outcome : forall d,
  (framed d -> exists s, decode d = Ok s) /\
  (~ framed d -> 2 <= len d -> padding d > 3 * (len d / 4) -> decode d = Throw ELengthError) /\
  (~ framed d -> 2 <= len d -> padding d <= 3 * (len d / 4) -> early_stop d (3 * (len d / 4) - padding d) ->
     exists s, decode d = Ok s) /\
  (~ framed d -> (len d < 2 \/ (padding d <= 3 * (len d / 4) /\ ~ early_stop d (3 * (len d / 4) - padding d))) ->
     decode d = UB UBIndex).
Proof. exact decode_iff. Qed.
Print Assumptions C118_decode_outcome.
Example C118_witness :
  framed (lit "!?==") /\ (~ framed (lit "A=") /\ padding (lit "A=") > 3 * (len (lit "A=") / 4)) /\
  (~ framed (lit "AA=AA") /\ early_stop (lit "AA=AA") (3 * (len (lit "AA=AA") / 4) - padding (lit "AA=AA"))) /\
  (~ framed (lit "AAAAA") /\ ~ early_stop (lit "AAAAA") (3 * (len (lit "AAAAA") / 4) - padding (lit "AAAAA"))) /\
  decode (lit "AA=AA") = Ok ["000"%char; "000"%char; "000"%char] /\ decode (lit "AAAAA") = UB UBIndex.
Proof.
  split; [split; [discriminate|reflexivity]|]. split; [split; [intros [_ H]; discriminate|reflexivity]|].
  split; [split; [intros [_ H]; discriminate|]|].
  { exists 0. split; [vm_compute; split; congruence|]. left. split; [reflexivity|vm_compute; congruence]. }
  split; [split; [intros [_ H]; discriminate|]|split; vm_compute; reflexivity].
  intros (g & Hg & H). change (0 <= g < 1) in Hg. assert (g = 0) as -> by lia. destruct H as [[H _]|[H _]]; vm_compute in H; discriminate.
Qed.
