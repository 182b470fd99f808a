(** json_parse reads only JSON texts (SpecGrammar.v), up to a byte order mark in front and a zero byte that ends the text, C148. *)
From Coq Require Import SpecFloat QArith Qcanon.
From Verif Require Import Prelude Bytes Float32 Json JsonText BytesProofs TextProofs TextString SpecText TextNumber TextParse SpecGrammar GrammarLex GrammarProofs.
Local Open Scope Z_scope.

Lemma elements_lead T w t l : blank w -> elements T t l -> elements T (w ++ t) l.
Proof.
  intros Hw H. destruct H as [a t j b Ha Hv Hb|a t j b rest l Ha Hv Hb Hr]; rewrite app_assoc; [apply elements_one|apply elements_more]; try assumption; apply Forall_app_2; assumption.
Qed.
Lemma members_lead T w t l : blank w -> members T t l -> members T (w ++ t) l.
Proof.
  intros Hw H. destruct H as [a raw k b c t j d Ha Hk Hb Hc Hv Hd|a raw k b c t j d rest ms Ha Hk Hb Hc Hv Hd Hr]; rewrite app_assoc; [apply members_one|apply members_more]; try assumption; apply Forall_app_2; assumption.
Qed.
Lemma no_value T fuel s p : parse_value T fuel TError s = Ok p -> False. Proof. destruct fuel; discriminate. Qed.
Lemma no_members T fuel acc s p : parse_members T fuel acc TError s = Ok p -> False. Proof. destruct fuel; discriminate. Qed.
Lemma no_elements T fuel acc s p : parse_elements T fuel acc TError s = Ok p -> False.
Proof. destruct fuel as [|fuel]; [discriminate|]. cbn [parse_elements]. destruct (parse_value T fuel TError s) eqn:E; try discriminate. destruct (no_value _ _ _ _ E). Qed.
Definition value_sound (T : numtext) (fuel : nat) : Prop := forall tok s j r x, parse_value T fuel tok s = Ok (j, r) -> lexeme T x tok ->
  exists y, s = y ++ r /\ value T (x ++ y) j.
Definition elements_sound (T : numtext) (fuel : nat) : Prop := forall acc tok s j r x, parse_elements T fuel acc tok s = Ok (j, r) -> lexeme T x tok ->
  exists y l, s = y ++ lit "]" ++ r /\ j = JArr (acc ++ l) /\ elements T (x ++ y) l.
Definition members_sound (T : numtext) (fuel : nat) : Prop := forall acc tok s j r x, parse_members T fuel acc tok s = Ok (j, r) -> lexeme T x tok ->
  exists y ms, s = y ++ lit "}" ++ r /\ j = JObj (emplaced acc ms) /\ members T (x ++ y) ms.
Ltac scanned H t s1 x w := lazymatch type of H with context [scan ?T ?s] =>
  let E := fresh "E" in let N := fresh "N" in let G := fresh "G" in
  destruct (scan T s) as [t s1] eqn:E; cbn beta iota zeta in H;
  assert (N : t <> TError) by (intros ->; first [discriminate H|destruct (no_value _ _ _ _ H)|destruct (no_members _ _ _ _ _ H)|destruct (no_elements _ _ _ _ _ H)]);
  pose proof (scan_sound T s t s1 E N) as G; clear E; destruct G as (w & x & ?Hw & -> & ?Hx) end.

Lemma parse_sound T : forall fuel, value_sound T fuel /\ members_sound T fuel /\ elements_sound T fuel.
Proof.
  induction fuel as [|fuel (IHv & IHm & IHe)]; [repeat split; intros ? **; discriminate|]. split; [|split].
  - intros tok s j r x H Hx. cbn [parse_value] in H. destruct tok; try discriminate H.
    + (* [ *) scanned H t s1 x1 w1. cbn [lexeme] in Hx. subst x. assert (D : t = TEndArray \/ t <> TEndArray) by (destruct t; first [left; reflexivity|right; discriminate]). destruct D as [->|Nt].
      * injection H as <- <-. cbn [lexeme] in Hx0. subst x1. exists (w1 ++ lit "]"). split; [rewrite <- app_assoc; reflexivity|]. apply value_empty_array, Hw.
      * assert (H' : parse_elements T fuel [] t s1 = Ok (j, r)) by (destruct t; try exact H; congruence). clear H.
        destruct (IHe _ _ _ _ _ x1 H' Hx0) as (y & l & -> & -> & Hl). exists (w1 ++ x1 ++ y ++ lit "]"). split; [rewrite <- !app_assoc; reflexivity|].
        rewrite (app_assoc x1), (app_assoc w1). apply value_array. apply elements_lead; assumption.
    + (* { *) scanned H t s1 x1 w1. cbn [lexeme] in Hx. subst x. assert (D : t = TEndObject \/ t <> TEndObject) by (destruct t; first [left; reflexivity|right; discriminate]). destruct D as [->|Nt].
      * injection H as <- <-. cbn [lexeme] in Hx0. subst x1. exists (w1 ++ lit "}"). split; [rewrite <- app_assoc; reflexivity|]. apply value_empty_object, Hw.
      * assert (H' : parse_members T fuel [] t s1 = Ok (j, r)) by (destruct t; try exact H; congruence). clear H.
        destruct (IHm _ _ _ _ _ x1 H' Hx0) as (y & ms & -> & -> & Hl). exists (w1 ++ x1 ++ y ++ lit "}"). split; [rewrite <- !app_assoc; reflexivity|].
        rewrite (app_assoc x1), (app_assoc w1). apply (value_object T _ ms); [apply members_lead; assumption|apply emplaced_object].
    + injection H as <- <-. exists []. split; [reflexivity|]. rewrite app_nil_r. cbn [lexeme] in Hx. subst x. constructor.
    + injection H as <- <-. exists []. split; [reflexivity|]. rewrite app_nil_r. cbn [lexeme] in Hx. subst x. constructor.
    + injection H as <- <-. exists []. split; [reflexivity|]. rewrite app_nil_r. cbn [lexeme] in Hx. subst x. constructor.
    + injection H as <- <-. exists []. split; [reflexivity|]. rewrite app_nil_r. destruct Hx as (raw & Hc & ->). apply value_string, Hc.
    + injection H as <- <-. exists []. split; [reflexivity|]. rewrite app_nil_r. apply value_number, Hx.
    + destruct (f32_finite f) eqn:Ef; [|discriminate]. injection H as <- <-. exists []. split; [reflexivity|]. rewrite app_nil_r. apply value_number, Hx, Ef.
  - intros acc tok s j r x H Hx. cbn [parse_members] in H. destruct tok; try discriminate H. rename s0 into k.
    scanned H t s1 x1 w1. destruct t; try discriminate H. cbn [lexeme] in Hx0. subst x1.
    destruct Hx as (raw & Hk & ->).
    destruct (scan T s1) as [t2 s2] eqn:E2. cbn beta iota zeta in H. destruct (parse_value T fuel t2 s2) as [[v s3]| | |] eqn:Ev; try discriminate H. cbn [rbind] in H.
    assert (N2 : t2 <> TError) by (intros ->; destruct (no_value _ _ _ _ Ev)). destruct (scan_sound T s1 t2 s2 E2 N2) as (w2 & x2 & Hw2 & -> & Hx2). clear E2.
    destruct (IHv _ _ _ _ x2 Ev Hx2) as (y2 & -> & Hv). clear Ev.
    scanned H t3 s4 x3 w3. destruct t3; try discriminate H.
    + injection H as <- <-. cbn [lexeme] in Hx. subst x3. exists (w1 ++ lit ":" ++ w2 ++ (x2 ++ y2) ++ w3), [(k, v)]. split; [rewrite <- !app_assoc; reflexivity|]. split; [reflexivity|].
      apply (members_one T [] raw k w1 w2 (x2 ++ y2) v w3); try assumption. constructor.
    + destruct (scan T s4) as [t5 s5] eqn:E5. cbn [lexeme] in Hx. subst x3.
      assert (N5 : t5 <> TError) by (intros ->; destruct (no_members _ _ _ _ _ H)). destruct (scan_sound T s4 t5 s5 E5 N5) as (w5 & x5 & Hw5 & -> & Hx5). clear E5.
      destruct (IHm _ _ _ _ _ x5 H Hx5) as (y5 & ms & -> & -> & Hm). exists (w1 ++ lit ":" ++ w2 ++ (x2 ++ y2) ++ w3 ++ lit "," ++ (w5 ++ x5 ++ y5)), ((k, v) :: ms).
      split; [rewrite <- !app_assoc; reflexivity|]. split; [reflexivity|].
      apply (members_more T [] raw k w1 w2 (x2 ++ y2) v w3 (w5 ++ x5 ++ y5) ms); try assumption; [constructor|]. apply members_lead; assumption.
  - intros acc tok s j r x H Hx. cbn [parse_elements] in H. destruct (parse_value T fuel tok s) as [[v s3]| | |] eqn:Ev; try discriminate H. cbn [rbind] in H.
    destruct (IHv _ _ _ _ x Ev Hx) as (y2 & -> & Hv). clear Ev. scanned H t3 s4 x3 w3. destruct t3; try discriminate H.
    + injection H as <- <-. cbn [lexeme] in Hx0. subst x3. exists (y2 ++ w3), [v]. split; [rewrite <- !app_assoc; reflexivity|]. split; [reflexivity|].
      rewrite app_assoc. apply (elements_one T [] (x ++ y2) v w3); try assumption. constructor.
    + destruct (scan T s4) as [t5 s5] eqn:E5. cbn [lexeme] in Hx0. subst x3.
      assert (N5 : t5 <> TError) by (intros ->; destruct (no_elements _ _ _ _ _ H)). destruct (scan_sound T s4 t5 s5 E5 N5) as (w5 & x5 & Hw5 & -> & Hx5). clear E5.
      destruct (IHe _ _ _ _ _ x5 H Hx5) as (y5 & l & -> & -> & Hm). exists (y2 ++ w3 ++ lit "," ++ (w5 ++ x5 ++ y5)), (v :: l).
      split; [rewrite <- !app_assoc; reflexivity|]. split; [rewrite <- app_assoc; reflexivity|].
      rewrite app_assoc. apply (elements_more T [] (x ++ y2) v w3 (w5 ++ x5 ++ y5) l); try assumption; [constructor|]. apply elements_lead; assumption.
Qed.

(** ** json::parse as a whole *)
Lemma value_first T t j : value T t j -> exists c s, t = c :: s /\ byte c <> 239.
Proof.
  intros H. destruct (proj1 (grammar_read T) t j H (length t) [] ltac:(lia) I) as (_ & _ & Hp). rewrite app_nil_r in Hp.
  destruct t as [|c t]; [discriminate Hp|]. exists c, t. split; [reflexivity|].
  intros E. rewrite (scan_bom T c t E) in Hp. discriminate.
Qed.
Lemma scan_end T s r : scan T s = (TEnd, r) -> exists w tail, s = w ++ tail /\ blank w /\ (tail = [] \/ exists g, tail = to_char 0 :: g).
Proof.
  intros H. destruct (skip_split s) as (w & Hw & E & _). exists w, (skip_space s). split; [exact E|]. split; [exact Hw|]. unfold scan in H.
  destruct (skip_space s) as [|c s'] eqn:Es; [left; reflexivity|right]. exists s'. f_equal. cbv zeta in H.
  repeat match type of H with (if ?b then _ else _) = _ => destruct b eqn:?; try discriminate H end.
  - apply literal_sound in H as [H _]; [discriminate H|discriminate].
  - apply literal_sound in H as [H _]; [discriminate H|discriminate].
  - apply literal_sound in H as [H _]; [discriminate H|discriminate].
  - destruct (scan_string s') as [[? ?]|]; discriminate H.
  - unfold scan_number in H. destruct (scan_digits _ _ _) as [[[? ty] ?]|]; [|discriminate H]. destruct ty; cbv zeta in H; repeat match type of H with context [if ?b then _ else _] => destruct b end; discriminate H.
  - assert (Ec : byte c = 0) by lia. rewrite <- (to_char_byte c), Ec. reflexivity.
Qed.
Lemma skip_bom_split text : exists b, (b = [] \/ b = bom) /\ text = b ++ skip_bom text.
Proof.
  destruct text as [|a [|b [|c s]]]; try (exists []; split; [left; reflexivity|reflexivity]). cbn [skip_bom]. destruct (_ && _) eqn:E.
  - exists bom. split; [right; reflexivity|]. unfold bom. assert (byte a = 239 /\ byte b = 187 /\ byte c = 191) as (<- & <- & <-) by lia. rewrite !to_char_byte. reflexivity.
  - exists []. split; [left; reflexivity|reflexivity].
Qed.
Lemma parse_accepted T text j : json_parse T text = Ok j <-> accepted T text j.
Proof.
  split.
  - intros H. unfold json_parse in H. destruct (skip_bom_split text) as (b & Hb & Et). destruct (scan T (skip_bom text)) as [t s] eqn:E.
    destruct (parse_value T _ t s) as [[j' s']| | |] eqn:Ep; try discriminate H. cbn [rbind] in H. destruct (scan T s') as [t' s2] eqn:E2. destruct t'; try discriminate H. injection H as ->.
    assert (N : t <> TError) by (intros ->; destruct (no_value _ _ _ _ Ep)). destruct (scan_sound T _ t s E N) as (w & x & Hw & Es & Hx).
    destruct (proj1 (parse_sound T _) _ _ _ _ x Ep Hx) as (y & -> & Hv). destruct (scan_end T s' s2 E2) as (c & tail & -> & Hc & Ht).
    exists b, (w ++ (x ++ y) ++ c), tail. split; [rewrite Et, Es, <- !app_assoc; reflexivity|]. split; [exact Hb|]. split; [|exact Ht].
    exists w, (x ++ y), c. auto.
  - intros (b & t0 & tail & -> & Hb & (a & t & c & -> & Ha & Hv & Hc) & Ht).
    assert (Hskip : skip_bom (b ++ (a ++ t ++ c) ++ tail) = a ++ t ++ c ++ tail).
    { destruct Hb as [->| ->]; rewrite <- !app_assoc; [cbn [app]|reflexivity]. destruct (value_first T t j Hv) as (d & s & -> & Hd).
      destruct Ha as [|d' a Hd' _]; cbn [app]; apply skip_bom_start; [exact Hd|]. destruct Hd' as [->|[->|[->| ->]]]; discriminate. }
    unfold json_parse. rewrite Hskip, (scan_blank T a) by exact Ha.
    assert (Hst : stop (c ++ tail)).
    { apply stop_blank; [exact Hc|]. destruct Ht as [->|[g ->]]; [exact I|]. repeat split; vm_compute; congruence. }
    destruct (proj1 (grammar_read T) t j Hv (2 * length (b ++ (a ++ t ++ c) ++ tail) + 2)%nat (c ++ tail) ltac:(rewrite !app_length; lia) Hst) as (_ & _ & Hp).
    destruct (scan T (t ++ c ++ tail)) as [tok s]. cbn [fst snd] in Hp. rewrite Hp. cbn [rbind]. rewrite scan_blank by exact Hc.
    destruct Ht as [->|[g ->]]; reflexivity.
Qed.
