(** Whatever json::parse yields can be written and read again. *)
From Coq Require Import SpecFloat QArith Qcanon.
From Verif Require Import Prelude Bytes Float32 Json JsonText BytesProofs TextProofs TextString TextNumber TextParse TextTotal SpecText SpecUtf8 Utf8Proofs TextApiProofs.
Local Open Scope Z_scope.

Lemma jinsert_keys k v l : exists l', jinsert k v l = l' /\ l'.*1 = (jinsert k JNull ((fun kv => (kv.1, JNull)) <$> l)).*1.
Proof.
  eexists. split; [reflexivity|]. induction l as [|[k' v'] l IH]; [reflexivity|]. rewrite fmap_cons. cbn [jinsert fst].
  destruct (decide (k = k')) as [->|Hne]; [|destruct (str_leb k k')]; rewrite !fmap_cons; cbn [fst].
  - f_equal. rewrite <- list_fmap_compose. reflexivity.
  - do 2 f_equal. rewrite <- list_fmap_compose. reflexivity.
  - f_equal. exact IH.
Qed.
Lemma jinsert_sorted k v l : StronglySorted str_lt l.*1 -> StronglySorted str_lt (jinsert k v l).*1.
Proof.
  intros H. destruct (jinsert_keys k v l) as (l' & -> & ->).
  assert (W : json_wf (NumText (fun _ _ => S754_nan)) (JObj (jinsert k JNull ((fun kv => (kv.1, JNull)) <$> l)))).
  { apply jinsert_wf; [|exact I]. apply json_wf_obj. split.
    - rewrite <- list_fmap_compose. exact H.
    - apply Forall_fmap, Forall_true. intros kv. exact I. }
  apply json_wf_obj in W. apply W.
Qed.
Lemma jinsert_forall (P : str * json -> Prop) k v l : P (k, v) -> Forall P l -> Forall P (jinsert k v l).
Proof.
  intros Hp. induction 1 as [|[k' v'] l Hk H IH]; cbn [jinsert]; [auto|]. destruct (decide (k = k')); [auto|]. destruct (str_leb k k'); auto.
Qed.
Lemma has_text_obj l : has_text (JObj l) <-> StronglySorted str_lt l.*1 /\ Forall (fun kv => utf8_ok kv.1 = true /\ has_text kv.2) l.
Proof.
  split.
  - intros H. inversion H as [| | | | | |l0 Hs Hk Hl El]. split; [exact Hs|]. rewrite Forall_fmap in Hk. setoid_rewrite utf8_ok_iff. rewrite Forall_fmap in Hl. apply Forall_and. split; assumption.
  - intros [Hs H]. setoid_rewrite utf8_ok_iff in H. apply Forall_and in H as [H1 H2]. constructor; [exact Hs| |]; apply Forall_fmap; assumption.
Qed.
Lemma jemplace_text k v l : utf8_ok k = true -> has_text v -> has_text (JObj l) -> has_text (JObj (jemplace k v l)).
Proof.
  intros Hk Hv Hl. unfold jemplace. destruct (assoc k l); [exact Hl|]. apply has_text_obj in Hl as [Hs Hl]. apply has_text_obj.
  split; [apply jinsert_sorted, Hs|]. apply jinsert_forall; auto.
Qed.

(** Tokens. *)
Definition text_token (t : token) : Prop :=
  match t with TString s => utf8_ok s = true | TInt z => - 2 ^ 63 <= z < 2 ^ 64 | TFloat f => is_f64 f | _ => True end.
Lemma scan_digits_int s : forall st ty b ty' r, scan_digits st ty s = Some (b, ty', r) -> st = NMinus \/ st = NZero \/ st = NAny1 \/ ty = NFloat ->
  ty' = NFloat \/ (ty' = ty /\ Forall (fun c => is_digit c = true) b).
Proof.
  induction s as [|c s IH]; intros st ty b ty' r H Hst; cbn [scan_digits] in H.
  { destruct (number_end st); [|discriminate]. injection H as <- <- <-. right. split; [reflexivity|constructor]. }
  destruct (number_step st c) as [st'| |] eqn:E; [|injection H as <- <- <-; right; split; [reflexivity|constructor]|discriminate].
  destruct (scan_digits st' (enter st' ty) s) as [[[b0 ty0] r0]|] eqn:E0; [|discriminate]. injection H as <- <- <-.
  assert (Hd : (is_digit c = true /\ (st' = NZero \/ st' = NAny1)) \/ enter st' ty = NFloat).
  { destruct Hst as [->|[->|[->| ->]]].
    - cbn [number_step] in E. destruct (Z.eqb_spec (byte c) 48); [injection E as <-; left; split; [unfold is_digit, in_range; lia|auto]|].
      destruct (is_digit c); [|discriminate]. injection E as <-. auto.
    - cbn [number_step] in E. destruct (byte c =? 46); [injection E as <-; right; reflexivity|]. destruct (is_exp c); [injection E as <-; right; reflexivity|discriminate].
    - cbn [number_step] in E. destruct (is_digit c); [injection E as <-; auto|]. destruct (byte c =? 46); [injection E as <-; right; reflexivity|].
      destruct (is_exp c); [injection E as <-; right; reflexivity|discriminate].
    - destruct st; cbn [number_step] in E; repeat match type of E with (if ?b then _ else _) = _ => destruct b end; try discriminate; injection E as <-; right; reflexivity. }
  destruct Hd as [[Hd Hs]|Hf].
  - assert (Een : enter st' ty = ty) by (destruct Hs as [->| ->]; reflexivity). rewrite Een in E0.
    destruct (IH _ _ _ _ _ E0 ltac:(tauto)) as [?|[? ?]]; [auto|]. right. split; [assumption|]. constructor; assumption.
  - rewrite Hf in E0. destruct (IH _ _ _ _ _ E0 ltac:(auto)) as [?|[? _]]; auto.
Qed.
Lemma digits_value_nonneg s : Forall (fun c => is_digit c = true) s -> forall a, 0 <= a -> 0 <= digits_value a s.
Proof.
  induction 1 as [|c s Hc H IH]; intros a Ha; cbn [digits_value]; [exact Ha|]. apply IH. unfold is_digit, in_range in Hc. lia.
Qed.
Lemma strtod_double T s : returns_double T -> is_f64 (strtod T s).
Proof.
  intros H. unfold strtod.
  destruct (match s with c :: s' => if byte c =? 45 then (true, s') else (false, s) | [] => (false, s) end) as [sg s1].
  destruct (span_digits s1) as [ip s2]. destruct (match s2 with c :: s' => if byte c =? 46 then span_digits s' else ([], s2) | [] => ([], s2) end) as [fp s3]. apply H.
Qed.
Lemma scan_literal_token w s t t' s' : text_token t -> scan_literal w s t = (t', s') -> text_token t'.
Proof.
  revert s. induction w as [|c w IH]; intros s Ht H; cbn [scan_literal] in H; [injection H as <- <-; exact Ht|].
  destruct s as [|c' s0]; [injection H as <- <-; exact I|]. destruct (decide (c' = c)); [exact (IH _ Ht H)|injection H as <- <-; exact I].
Qed.
Lemma scan_token T s t s' : returns_double T -> scan T s = (t, s') -> text_token t.
Proof.
  intros HT H. unfold scan in H. destruct (skip_space s) as [|c s1]; [injection H as <- <-; exact I|]. cbv zeta in H.
  repeat match type of H with (if ?b then _ else _) = _ => destruct b eqn:? end; try (injection H as <- <-; exact I).
  1-3: eapply scan_literal_token; [|exact H]; exact I.
  - destruct (scan_string s1) as [[x r]|] eqn:E; injection H as <- <-; [|exact I]. cbn. eapply scan_string_utf8; [|exact E]. reflexivity.
  - unfold scan_number in H.
    destruct (scan_digits (if byte c =? 45 then NMinus else if byte c =? 48 then NZero else NAny1) _ s1) as [[[b ty] r]|] eqn:E; [|injection H as <- <-; exact I].
    injection H as <- <-. apply scan_digits_int in E; [|destruct (byte c =? 45); [auto|]; destruct (byte c =? 48); auto].
    destruct E as [->|[-> Hb]]; [apply strtod_double, HT|].
    destruct (Z.eqb_spec (byte c) 45) as [Em|Em].
    + cbn [enter]. unfold signed_value. destruct (Z.leb_spec LL_MIN (- digits_value 0 b)); [|apply strtod_double, HT].
      cbn. pose proof (digits_value_nonneg b Hb 0 ltac:(lia)). unfold LL_MIN in *. lia.
    + assert (Hc : is_digit c = true) by (match goal with H : _ = true |- _ => rewrite orb_false_l in H; exact H end).
      assert (Een : enter (if byte c =? 48 then NZero else NAny1) NUnsigned = NUnsigned) by (destruct (byte c =? 48); reflexivity). rewrite Een.
      cbn [digits_value]. destruct (Z.ltb_spec (digits_value (0 * 10 + (byte c - 48)) b) W64); [|apply strtod_double, HT]. cbn [text_token].
      pose proof (digits_value_nonneg b Hb (0 * 10 + (byte c - 48)) ltac:(unfold is_digit, in_range in Hc; lia)). unfold W64 in *. lia.
Qed.
Lemma parse_text T : returns_double T -> forall fuel,
  (forall t s v s', text_token t -> parse_value T fuel t s = Ok (v, s') -> has_text v) /\
  (forall acc t s v s', text_token t -> has_text (JObj acc) -> parse_members T fuel acc t s = Ok (v, s') -> has_text v) /\
  (forall acc t s v s', text_token t -> Forall has_text acc -> parse_elements T fuel acc t s = Ok (v, s') -> has_text v).
Proof.
  intros HT. induction fuel as [|fuel (IHv & IHm & IHe)]; [repeat split; intros; discriminate|].
  assert (H0 : has_text (JObj [])) by (apply has_text_obj; split; constructor). split; [|split].
  - intros t s v s' Ht H. destruct t; cbn [parse_value] in H; try discriminate.
    + destruct (scan T s) as [t1 s1] eqn:E. apply scan_token in E; [|exact HT].
      destruct t1; try (injection H as <- <-; constructor; constructor); eapply IHe; try exact H; try exact E; constructor.
    + destruct (scan T s) as [t1 s1] eqn:E. apply scan_token in E; [|exact HT].
      destruct t1; try (injection H as <- <-; exact H0); eapply IHm; try exact H; try exact E; exact H0.
    + injection H as <- <-. constructor.
    + injection H as <- <-. constructor.
    + injection H as <- <-. constructor.
    + injection H as <- <-. constructor. apply utf8_ok_iff, Ht.
    + injection H as <- <-. constructor. exact Ht.
    + destruct (f32_finite f) eqn:Ef; [|discriminate]. injection H as <- <-. constructor; assumption.
  - intros acc t s v s' Ht Ha H. cbn [parse_members] in H. destruct t as [| | | | | | | | |k| | | |]; try discriminate.
    destruct (scan T s) as [t1 s1] eqn:E1. destruct t1; try discriminate. destruct (scan T s1) as [t2 s2] eqn:E2. apply scan_token in E2; [|exact HT].
    destruct (parse_value T fuel t2 s2) as [[w s3]| | |] eqn:Ev; cbn [rbind] in H; try discriminate. apply IHv in Ev; [|exact E2].
    assert (Ha' : has_text (JObj (jemplace k w acc))) by (apply jemplace_text; assumption).
    destruct (scan T s3) as [t3 s4] eqn:E3. destruct t3; try discriminate; [injection H as <- <-; exact Ha'|].
    destruct (scan T s4) as [t4 s5] eqn:E4. apply scan_token in E4; [|exact HT]. eapply IHm; [exact E4|exact Ha'|exact H].
  - intros acc t s v s' Ht Ha H. cbn [parse_elements] in H.
    destruct (parse_value T fuel t s) as [[w s3]| | |] eqn:Ev; cbn [rbind] in H; try discriminate. apply IHv in Ev; [|exact Ht].
    assert (Ha' : Forall has_text (acc ++ [w])) by (apply Forall_app; auto).
    destruct (scan T s3) as [t3 s4] eqn:E3. destruct t3; try discriminate; [injection H as <- <-; constructor; exact Ha'|].
    destruct (scan T s4) as [t4 s5] eqn:E4. apply scan_token in E4; [|exact HT]. eapply IHe; [exact E4|exact Ha'|exact H].
Qed.
Theorem json_parse_text T text j : returns_double T -> json_parse T text = Ok j -> has_text j.
Proof.
  intros HT H. unfold json_parse in H. destruct (scan T (skip_bom text)) as [t s] eqn:E. apply scan_token in E; [|exact HT].
  destruct (parse_value T (2 * length text + 2) t s) as [[v s1]| | |] eqn:Ev; cbn [rbind] in H; try discriminate.
  destruct (scan T s1) as [t1 s2]. destruct t1; try discriminate. injection H as <-. exact (proj1 (parse_text T HT _) t s v s1 E Ev).
Qed.
