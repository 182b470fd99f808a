(** Property theorem C113: the text of a fractional number. Vocabulary in GrisuSpec.v (doubles, midpoints, what rounds to what). *)
From Coq Require Import SpecFloat QArith Qcanon.
From Verif Require Import Prelude Bytes Float32 Json Grisu GrisuSpec JsonText SpecText.
From Verif Require Import GrisuProofs FloatConv TextNumber TextParse Nearest.
Local Open Scope Z_scope.

(** C113: the number m * 2^e is written with at most 17 digits. Of all doubles, it alone is nearest to the number those digits
    denote. *)
Theorem C113_digits : forall m e, is_double m e -> exists ds x, grisu2 m e = Ok (ds, x) /\
  1 <= len ds <= 17 /\ Forall (fun d => 0 <= d <= 9) ds /\ ds !! 0%nat <> Some 0 /\ rounds_to (decimal (digits_of ds) x) m e.
Proof. intros m e H. destruct (grisu2_spec m e H) as (ds & x & E & Hl & [H1 H2] & _ & Hr). exists ds, x. auto 6. Qed.
Print Assumptions C113_digits.
(** The text has at most 24 characters (the buffer holds 64), and every reader takes it for the same rational number q, sign
    apart; so with a correctly rounding strtod the same double is read. *)
Theorem C113_text : forall sg m e, is_double (Z.pos m) e -> exists t q,
  json_dump (JFloat (S754_finite sg m e)) = Ok t /\ len t <= 24 /\ rounds_to q (Z.pos m) e /\
  forall T, f32_finite (nearest T sg q) = true -> json_parse T t = Ok (JFloat (nearest T sg q)).
Proof.
  intros sg m e H. destruct (dump_float_value sg m e H) as (t & q & E & Hn & Hl & Hr & Hs). exists t, q. split; [exact E|]. split; [exact Hl|]. split; [exact Hr|].
  intros T Hf. specialize (Hs T [] I). rewrite app_nil_r in Hs. unfold json_parse.
  assert (Hb : skip_bom t = t).
  { destruct t as [|c t]; [congruence|]. apply skip_bom_start. intros Ec. pose proof (scan_bom T c t Ec) as Hs'. rewrite Hs in Hs'. discriminate. }
  rewrite Hb, Hs. rewrite Nat.add_comm. cbn [Nat.add parse_value]. rewrite Hf. reflexivity.
Qed.
Print Assumptions C113_text.
Theorem C113_double : forall T f, correct_strtod T -> is_f64 f ->
  exists t, json_dump (JFloat f) = Ok t /\ json_parse T t = Ok (if f32_finite f then JFloat f else JNull).
Proof.
  intros T f HT Hf. pose proof (dump_parse T false 0 (JFloat f) (conj HT Hf)) as H. change (dump_at false 0 0 (JFloat f)) with (json_dump (JFloat f)) in H.
  destruct (json_dump (JFloat f)) as [t| | |]; try discriminate. exists t. split; [reflexivity|]. cbn [rbind] in H. rewrite H. cbn [retext]. reflexivity.
Qed.
Print Assumptions C113_double.
(** A float member (minScore) goes through double and text and back without change. *)
Theorem C113_float : forall T f, correct_strtod T -> is_f32 f -> f32_finite f = true ->
  exists t j, json_dump (JFloat (f64_of_f32 f)) = Ok t /\ json_parse T t = Ok j /\ jget_float j = Ok f.
Proof.
  intros T f HT Hf Hi. destruct (C113_double T (f64_of_f32 f) HT (widen_f64 f Hf)) as (t & E & Hp). rewrite widen_finite, Hi in Hp by exact Hf.
  exists t, (JFloat (f64_of_f32 f)). split; [exact E|]. split; [exact Hp|]. cbn [jget_float]. rewrite widen_narrow by exact Hf. reflexivity.
Qed.
Print Assumptions C113_float.
Definition shown (f : f64) : res str := json_dump (JFloat f).
(** 0.1 as a double, as a float; 1/3; 2^51 + 1/2; the smallest double; the largest, negated; 100. *)
Example C113_texts :
  shown (S754_finite false 7205759403792794 (-56)) = Ok (lit "0.1") /\
  shown (f64_of_f32 (S754_finite false 13421773 (-27))) = Ok (lit "0.10000000149011612") /\
  shown (S754_finite false 6004799503160661 (-54)) = Ok (lit "0.3333333333333333") /\
  shown (S754_finite false 4503599627370497 (-1)) = Ok (lit "2.2517998136852485e+15") /\
  shown (S754_finite false 1 (-1074)) = Ok (lit "5e-324") /\
  shown (S754_finite true 9007199254740991 971) = Ok (lit "-1.7976931348623157e+308") /\
  shown (S754_finite false 7036874417766400 (-46)) = Ok (lit "100.0").
Proof. repeat (split; [vm_compute; reflexivity|]). vm_compute. reflexivity. Qed.
Example C113_witness : is_double 7205759403792794 (-56) /\ is_double 1 (-1074) /\ is_double 9007199254740991 971 /\
  is_f32 (S754_finite false 13421773 (-27)) /\ correct_strtod strtod_even /\
  json_parse strtod_even (lit "0.1") = Ok (JFloat (S754_finite false 7205759403792794 (-56))) /\
  json_parse strtod_even (lit "1e400") = Throw EJsonRange.
Proof.
  split; [unfold is_double; lia|]. split; [unfold is_double; lia|]. split; [unfold is_double; lia|]. split; [reflexivity|]. split; [exact strtod_even_correct|].
  split; vm_compute; reflexivity.
Qed.
