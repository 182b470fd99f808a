(** The scanner of JsonText.v reads exactly the lexemes of SpecGrammar.v. *)
From Coq Require Import SpecFloat QArith Qcanon.
From Verif Require Import Prelude Bytes Float32 Json JsonText GrisuSpec SpecUtf8 SpecGrammar SpecText.
From Verif Require Import BytesProofs TextProofs TextString TextTotal TextNumber Utf8Proofs.
Local Open Scope Z_scope.

(** ** Strings *)
Lemma utf8_is_bytes cp : scalar cp -> utf8 cp = utf8_bytes cp.
Proof.
  intros H. unfold utf8. rewrite <- utf8_bytes_encode by (unfold scalar in H; lia). rewrite <- list_fmap_compose.
  rewrite <- (list_fmap_id (utf8_bytes cp)) at 2. apply list_fmap_ext. intros _ c _. apply to_char_byte.
Qed.
Lemma utf8_unit cp : scalar cp -> unit_ok (byte <$> utf8 cp).
Proof.
  intros H. rewrite utf8_is_bytes, utf8_bytes_encode by (try exact H; unfold scalar in H; lia). apply unit_encode. eauto.
Qed.
Lemma unit_utf8 u : unit_ok (byte <$> u) -> exists cp, scalar cp /\ u = utf8 cp /\ byte <$> u = encode cp.
Proof.
  intros H. apply unit_encode in H as (cp & Hs & E). exists cp. split; [exact Hs|]. split; [|exact E]. unfold utf8. rewrite <- E, <- list_fmap_compose.
  rewrite <- (list_fmap_id u) at 1. apply list_fmap_ext. intros _ c _. symmetry. apply to_char_byte.
Qed.
Lemma byte_eq c z : 0 <= z < 256 -> byte c = z -> c = to_char z.
Proof. intros _ <-. symmetry. apply to_char_byte. Qed.
Lemma hex_digit_value c v : hex_digit c v <-> hex_value c = Some v.
Proof.
  unfold hex_digit, hex_value. cbv zeta.
  repeat match goal with |- context [if ?b then _ else _] => destruct b eqn:? end; split; intros H;
   try (injection H as <-); try discriminate; try f_equal; lia.
Qed.
Lemma hex4_codepoint a b c d v : hex4 [a; b; c; d] v <-> codepoint4 a b c d = Some v.
Proof.
  unfold hex4, codepoint4. split.
  - intros (a' & b' & c' & d' & va & vb & vc & vd & E & Ha & Hb & Hc & Hd & ->). injection E as <- <- <- <-.
    apply hex_digit_value in Ha, Hb, Hc, Hd. rewrite Ha, Hb, Hc, Hd. f_equal. lia.
  - destruct (hex_value a) as [va|] eqn:A; [|discriminate]. destruct (hex_value b) as [vb|] eqn:B; [|discriminate].
    destruct (hex_value c) as [vc|] eqn:C; [|discriminate]. destruct (hex_value d) as [vd|] eqn:D; [|discriminate]. intros [= <-].
    apply hex_digit_value in A, B, C, D. exists a, b, c, d, va, vb, vc, vd. split; [reflexivity|]. split; [exact A|]. split; [exact B|]. split; [exact C|]. split; [exact D|lia].
Qed.
Lemma scan_unit u x : unit_ok (byte <$> u) -> (forall c, u = [c] -> 32 <= byte c /\ byte c <> 34 /\ byte c <> 92) ->
  scan_string (u ++ x) = emit u (scan_string x).
Proof.
  destruct u as [|a [|b [|c [|d [|e u]]]]]; rewrite ?fmap_cons, ?fmap_nil; cbn [unit_ok]; try (intros []; fail); intros H H1.
  - specialize (H1 a eq_refl). cbn [app scan_string].
    rewrite (proj2 (Z.eqb_neq _ 34)), (proj2 (Z.eqb_neq _ 92)), (proj2 (Z.ltb_ge _ 32)), (proj2 (Z.ltb_lt _ 128)) by lia. reflexivity.
  - cbn [app]. apply scan2; unfold in_range; lia.
  - cbn [app]. apply scan3; unfold in_range; ifs.
  - cbn [app]. apply scan4; unfold in_range; ifs.
Qed.
Lemma scan_short e c x : (e, c) ∈ short_escapes -> scan_string (to_char 92 :: e :: x) = emit [c] (scan_string x).
Proof.
  unfold short_escapes. rewrite !elem_of_cons, elem_of_nil. intros [E|[E|[E|[E|[E|[E|[E|[E|[]]]]]]]]]; injection E as -> ->; reflexivity.
Qed.
Lemma scan_chars raw s : chars raw s -> forall rest, scan_string (raw ++ to_char 34 :: rest) = Some (s, rest).
Proof.
  induction 1 as [|cp raw s Hs Hlo H34 H92 _ IH|e c raw s Hin _ IH|h cp raw s Hh Hs _ IH|h1 hi h2 lo raw s Hh1 Hhi Hh2 Hlo _ IH]; intros rest.
  - reflexivity.
  - rewrite <- app_assoc, scan_unit; [rewrite IH; reflexivity|apply utf8_unit, Hs|]. intros c E.
    assert (Hc : [byte c] = encode cp).
    { rewrite <- (utf8_bytes_encode cp) by (unfold scalar in Hs; lia). rewrite <- (utf8_is_bytes cp Hs), E. reflexivity. }
    unfold encode in Hc. destruct (cp <? 128); [injection Hc as Hc; lia|]. destruct (cp <? 2048); [discriminate|]. destruct (cp <? 65536); discriminate.
  - change ((to_char 92 :: e :: raw) ++ to_char 34 :: rest) with (to_char 92 :: e :: (raw ++ to_char 34 :: rest)).
    rewrite (scan_short e c _ Hin), IH. reflexivity.
  - destruct Hh as (a & b & c & d & va & vb & vc & vd & E & Hh). assert (Hx : hex4 h cp) by (rewrite E; do 8 eexists; split; [reflexivity|exact Hh]).
    subst h. apply hex4_codepoint in Hx. rewrite utf8_is_bytes by exact Hs.
    change ((lit "\u" ++ [a; b; c; d] ++ raw) ++ to_char 34 :: rest) with (to_char 92 :: to_char 117 :: a :: b :: c :: d :: (raw ++ to_char 34 :: rest)).
    etransitivity; [|instantiate (1 := emit (utf8_bytes cp) (scan_string (raw ++ to_char 34 :: rest))); rewrite IH; reflexivity].
    cbn -[to_char codepoint4 utf8_bytes scan_string]. change (scan_string (to_char 92 :: to_char 117 :: a :: b :: c :: d :: raw ++ to_char 34 :: rest)) with
     (match codepoint4 a b c d with
                  | None => None
                  | Some cp =>
                      if (55296 <=? cp) && (cp <=? 56319) then
                        match raw ++ to_char 34 :: rest with
                        | b :: u :: g1 :: g2 :: g3 :: g4 :: s4 =>
                            if (byte b =? 92) && (byte u =? 117) then
                              match codepoint4 g1 g2 g3 g4 with
                              | Some cp2 =>
                                  if (56320 <=? cp2) && (cp2 <=? 57343)
                                  then emit (utf8_bytes (cp * 1024 + cp2 - 56613888)) (scan_string s4)
                                  else None
                              | None => None
                              end
                            else None
                        | _ => None
                        end
                      else if (56320 <=? cp) && (cp <=? 57343) then None
                      else emit (utf8_bytes cp) (scan_string (raw ++ to_char 34 :: rest))
                  end). rewrite Hx. unfold scalar in Hs.
    replace ((55296 <=? cp) && (cp <=? 56319)) with false by lia. replace ((56320 <=? cp) && (cp <=? 57343)) with false by lia. reflexivity.
  - pose proof Hh1 as (a & b & c & d & _ & _ & _ & _ & -> & _). pose proof Hh2 as (e & f & g & i & _ & _ & _ & _ & -> & _).
    apply hex4_codepoint in Hh1, Hh2. 
    assert (Hsc : scalar (0x10000 + (hi - 0xD800) * 1024 + (lo - 0xDC00))) by (unfold scalar; lia).
    rewrite utf8_is_bytes by exact Hsc.
    etransitivity; [|instantiate (1 := emit (utf8_bytes (0x10000 + (hi - 0xD800) * 1024 + (lo - 0xDC00))) (scan_string (raw ++ to_char 34 :: rest))); rewrite IH; reflexivity].
    change (scan_string ((lit "\u" ++ [a; b; c; d] ++ lit "\u" ++ [e; f; g; i] ++ raw) ++ to_char 34 :: rest)) with
     (match codepoint4 a b c d with
                  | None => None
                  | Some cp =>
                      if (55296 <=? cp) && (cp <=? 56319) then
                              match codepoint4 e f g i with
                              | Some cp2 =>
                                  if (56320 <=? cp2) && (cp2 <=? 57343)
                                  then emit (utf8_bytes (cp * 1024 + cp2 - 56613888)) (scan_string (raw ++ to_char 34 :: rest))
                                  else None
                              | None => None
                              end
                      else if (56320 <=? cp) && (cp <=? 57343) then None
                      else emit (utf8_bytes cp) (scan_string (lit "\u" ++ [e; f; g; i] ++ raw ++ to_char 34 :: rest))
                  end). rewrite Hh1, Hh2.
    replace ((55296 <=? hi) && (hi <=? 56319)) with true by lia. replace ((56320 <=? lo) && (lo <=? 57343)) with true by lia.
    replace (hi * 1024 + lo - 56613888) with (0x10000 + (hi - 0xD800) * 1024 + (lo - 0xDC00)) by lia. reflexivity.
Qed.
Lemma chars_scan : forall n s t r, (length s <= n)%nat -> scan_string s = Some (t, r) -> exists raw, s = raw ++ to_char 34 :: r /\ chars raw t.
Proof.
  induction n as [|n IH]; intros s t r Hn H; (destruct s as [|c s1]; [discriminate|]); cbn [length] in *; [lia|].
  assert (Hu : forall u rest t', c :: s1 = u ++ rest -> (length rest <= n)%nat -> scan_string rest = Some (t', r) -> unit_ok (byte <$> u) ->
     (forall d, u = [d] -> 32 <= byte d /\ byte d <> 34 /\ byte d <> 92) -> exists raw, c :: s1 = raw ++ to_char 34 :: r /\ chars raw (u ++ t')).
  { intros u rest t' E Hl Hr Hok H1. destruct (IH rest t' r Hl Hr) as (raw & -> & Hc). destruct (unit_utf8 u Hok) as (cp & Hs & -> & Eb).
    exists (utf8 cp ++ raw). split; [rewrite <- app_assoc; exact E|].
    assert (Hcp : 32 <= cp /\ cp <> 34 /\ cp <> 92).
    { destruct (Z.ltb_spec cp 128); [|lia]. unfold encode in Eb. rewrite (proj2 (Z.ltb_lt cp 128)) in Eb by lia.
      destruct (utf8 cp) as [|d [|? ?]] eqn:Eu; rewrite ?fmap_cons, ?fmap_nil in Eb; try discriminate. injection Eb as Eb. specialize (H1 d eq_refl). lia. }
    apply chars_plain; [exact Hs|apply Hcp|apply Hcp|apply Hcp|exact Hc]. }
  assert (Hsh : forall e d rest t', c = to_char 92 -> s1 = e :: rest -> (e, d) ∈ short_escapes -> (length rest <= n)%nat -> scan_string rest = Some (t', r) ->
     exists raw, c :: s1 = raw ++ to_char 34 :: r /\ chars raw ([d] ++ t')).
  { intros e d rest t' -> -> Hin Hl Hr. destruct (IH rest t' r Hl Hr) as (raw & -> & Hc). exists (to_char 92 :: e :: raw). split; [reflexivity|].
    apply (chars_short e d raw t' Hin Hc). }
  cbn [scan_string] in H. pose proof (byte_range c) as Rc.
  destruct (Z.eqb_spec (byte c) 34) as [E34|N34].
  { injection H as <- <-. exists []. split; [|constructor]. rewrite <- (to_char_byte c), E34. reflexivity. }
  destruct (Z.eqb_spec (byte c) 92) as [E92|N92].
  { assert (Ec : c = to_char 92) by (rewrite <- (to_char_byte c), E92; reflexivity).
    destruct s1 as [|e s2]; [discriminate|]. cbn [length] in Hn. pose proof (to_char_byte e) as Ee.
    destruct (Z.eqb_spec (byte e) 34) as [E1|_]; [apply emit_some in H as (t' & H & ->); eapply (Hsh e e s2 t' Ec eq_refl); [rewrite <- Ee, E1; vm_compute; set_solver|lia|exact H]|].
    destruct (Z.eqb_spec (byte e) 92) as [E1|_]; [apply emit_some in H as (t' & H & ->); eapply (Hsh e e s2 t' Ec eq_refl); [rewrite <- Ee, E1; vm_compute; set_solver|lia|exact H]|].
    destruct (Z.eqb_spec (byte e) 47) as [E1|_]; [apply emit_some in H as (t' & H & ->); eapply (Hsh e e s2 t' Ec eq_refl); [rewrite <- Ee, E1; vm_compute; set_solver|lia|exact H]|].
    destruct (Z.eqb_spec (byte e) 98) as [E1|_]; [apply emit_some in H as (t' & H & ->); eapply (Hsh e (to_char 8) s2 t' Ec eq_refl); [rewrite <- Ee, E1; vm_compute; set_solver|lia|exact H]|].
    destruct (Z.eqb_spec (byte e) 102) as [E1|_]; [apply emit_some in H as (t' & H & ->); eapply (Hsh e (to_char 12) s2 t' Ec eq_refl); [rewrite <- Ee, E1; vm_compute; set_solver|lia|exact H]|].
    destruct (Z.eqb_spec (byte e) 110) as [E1|_]; [apply emit_some in H as (t' & H & ->); eapply (Hsh e (to_char 10) s2 t' Ec eq_refl); [rewrite <- Ee, E1; vm_compute; set_solver|lia|exact H]|].
    destruct (Z.eqb_spec (byte e) 114) as [E1|_]; [apply emit_some in H as (t' & H & ->); eapply (Hsh e (to_char 13) s2 t' Ec eq_refl); [rewrite <- Ee, E1; vm_compute; set_solver|lia|exact H]|].
    destruct (Z.eqb_spec (byte e) 116) as [E1|_]; [apply emit_some in H as (t' & H & ->); eapply (Hsh e (to_char 9) s2 t' Ec eq_refl); [rewrite <- Ee, E1; vm_compute; set_solver|lia|exact H]|].
    destruct (Z.eqb_spec (byte e) 117) as [E1|_]; [|discriminate].
    assert (Eu : e = to_char 117) by (rewrite <- Ee, E1; reflexivity). subst c e.
    destruct s2 as [|h1 [|h2 [|h3 [|h4 s3]]]]; try discriminate. destruct (codepoint4 h1 h2 h3 h4) as [cp|] eqn:Ecp; [|discriminate].
    pose proof (codepoint_bound _ _ _ _ _ Ecp) as Bcp. apply hex4_codepoint in Ecp. cbn [length] in Hn.
    destruct ((55296 <=? cp) && (cp <=? 56319)) eqn:Ehi.
    - destruct s3 as [|b [|u [|g1 [|g2 [|g3 [|g4 s4]]]]]]; try discriminate. destruct ((byte b =? 92) && (byte u =? 117)) eqn:Ebu; [|discriminate].
      destruct (codepoint4 g1 g2 g3 g4) as [cp2|] eqn:Ecp2; [|discriminate]. apply hex4_codepoint in Ecp2.
      destruct ((56320 <=? cp2) && (cp2 <=? 57343)) eqn:Elo; [|discriminate]. apply emit_some in H as (t' & H & ->). cbn [length] in Hn.
      destruct (IH s4 t' r ltac:(lia) H) as (raw & -> & Hc).
      assert (Eb : b = to_char 92) by (rewrite <- (to_char_byte b); f_equal; lia). assert (Eu : u = to_char 117) by (rewrite <- (to_char_byte u); f_equal; lia). subst b u.
      exists (lit "\u" ++ [h1; h2; h3; h4] ++ lit "\u" ++ [g1; g2; g3; g4] ++ raw). split; [reflexivity|].
      replace (cp * 1024 + cp2 - 56613888) with (0x10000 + (cp - 0xD800) * 1024 + (cp2 - 0xDC00)) by lia.
      rewrite <- utf8_is_bytes by (unfold scalar; lia). apply chars_pair; [exact Ecp|lia|exact Ecp2|lia|exact Hc].
    - destruct ((56320 <=? cp) && (cp <=? 57343)) eqn:Elo; [discriminate|]. apply emit_some in H as (t' & H & ->).
      destruct (IH s3 t' r ltac:(lia) H) as (raw & -> & Hc). exists (lit "\u" ++ [h1; h2; h3; h4] ++ raw). split; [reflexivity|].
      assert (Hs : scalar cp) by (unfold scalar; lia). rewrite <- utf8_is_bytes by exact Hs. apply chars_unicode; [exact Ecp|exact Hs|exact Hc]. }
  destruct (Z.ltb_spec (byte c) 32) as [L32|L32]; [discriminate|].
  destruct_scan_eq H; subst; unfold in_range in *; apply emit_some in H as (t' & H & ->); cbn [length] in Hn;
    (eapply Hu; [reflexivity| |exact H| |]); try lia; try (intros d E; first [injection E as <-; lia|discriminate]);
    rewrite ?fmap_cons, ?fmap_nil; cbn [unit_ok]; ifs.
Qed.

(** ** Numbers *)
Lemma digit_iff c : is_number_digit c <-> is_digit c = true.
Proof. unfold is_number_digit, is_digit, in_range. lia. Qed.
Lemma digits_iff ds : Forall is_number_digit ds <-> digits ds.
Proof. unfold digits. split; intros H; (eapply Forall_impl; [exact H|]); intros c; apply digit_iff. Qed.
Lemma natural_value ds : natural ds = digits_value 0 ds.
Proof.
  unfold natural. assert (H : forall ds a, fold_left (fun v c => 10 * v + (byte c - 48)) ds a = digits_value a ds); [|apply H].
  clear. intros ds. induction ds as [|c ds IH]; intros a; [reflexivity|]. cbn [fold_left digits_value]. rewrite IH. f_equal. lia.
Qed.

Lemma stop_digit ds : digits ds -> ds <> [] -> exists d ds', ds = d :: ds' /\ is_digit d = true /\ digits ds' /\ 48 <= byte d <= 57.
Proof. intros H Hn. destruct ds as [|d ds']; [congruence|]. apply Forall_cons in H as [Hd H]. exists d, ds'. split; [reflexivity|]. split; [exact Hd|]. split; [exact H|]. apply digit_bounds, Hd. Qed.
Definition kind (ty : ntype) (fr ex : str) : ntype := match fr ++ ex with [] => ty | _ => NFloat end.
Lemma exp_scan st ty ex x r : exponent ex x -> (st = NZero \/ st = NAny1 \/ st = NDecimal2) -> stop r ->
  scan_digits st ty (ex ++ r) = Some (ex, kind ty [] ex, r).
Proof.
  intros H Hst Hr. destruct H as [|e sg ds He Hsg Hn Hd].
  - cbn [app]. apply run_stop; [destruct Hst as [->|[->| ->]]; reflexivity|exact Hr].
  - apply digits_iff in Hd. destruct (stop_digit ds Hd Hn) as (d & ds' & -> & Hd1 & Hds & Hb).
    change ((e :: sg ++ d :: ds') ++ r) with (e :: (sg ++ d :: ds') ++ r). rewrite (step_goto st NExponent).
    2:{ destruct He as [->| ->]; destruct Hst as [->|[->| ->]]; reflexivity. }
    cbn [enter kind app]. assert (E : scan_digits NExponent NFloat ((sg ++ d :: ds') ++ r) = Some (sg ++ d :: ds', NFloat, r)); [|rewrite E; reflexivity].
    assert (E2 : forall st', number_step st' d = Goto NAny2 -> scan_digits st' NFloat ((d :: ds') ++ r) = Some (d :: ds', NFloat, r)).
    { intros st' Es. cbn [app]. rewrite (step_goto st' NAny2) by exact Es. cbn [enter]. rewrite (digits_end NAny2 NFloat ds' r) by (auto; right; right; reflexivity). reflexivity. }
    destruct Hsg as [->|[->| ->]].
    + cbn [app]. apply E2. cbn [number_step]. rewrite (proj2 (Z.eqb_neq _ 43)), (proj2 (Z.eqb_neq _ 45)), Hd1 by lia. reflexivity.
    + rewrite <- app_assoc. change (lit "+" ++ (d :: ds') ++ r) with ("+"%char :: (d :: ds') ++ r). rewrite (step_goto NExponent NSign) by reflexivity. cbn [enter].
      rewrite E2 by (cbn [number_step]; rewrite Hd1; reflexivity). reflexivity.
    + rewrite <- app_assoc. change (lit "-" ++ (d :: ds') ++ r) with ("-"%char :: (d :: ds') ++ r). rewrite (step_goto NExponent NSign) by reflexivity. cbn [enter].
      rewrite E2 by (cbn [number_step]; rewrite Hd1; reflexivity). reflexivity.
Qed.
Lemma body_scan st ty fr fp ex x r : fraction fr fp -> exponent ex x -> (st = NZero \/ st = NAny1) -> stop r ->
  scan_digits st ty (fr ++ ex ++ r) = Some (fr ++ ex, kind ty fr ex, r).
Proof.
  intros [[-> ->]|(-> & Hn & Hd)] He Hst Hr.
  - apply (exp_scan st ty ex x r He); [tauto|exact Hr].
  - apply digits_iff in Hd. destruct (stop_digit fp Hd Hn) as (d & ds' & -> & Hd1 & Hds & Hb).
    change ((lit "." ++ d :: ds') ++ ex ++ r) with ("."%char :: (d :: (ds' ++ ex ++ r))). rewrite (step_goto st NDecimal1) by (destruct Hst as [->| ->]; reflexivity).
    rewrite (step_goto NDecimal1 NDecimal2) by (cbn [number_step]; rewrite Hd1; reflexivity). cbn [enter].
    rewrite run_digits by (auto). rewrite (exp_scan NDecimal2 NFloat ex x r He) by auto. unfold kind. cbn [app adds]. f_equal. f_equal. f_equal. destruct ex; reflexivity.
Qed.
Lemma part_scan st ty ip fr fp ex x r : integer_part ip -> fraction fr fp -> exponent ex x -> stop r -> st = NMinus ->
  scan_digits st ty (ip ++ fr ++ ex ++ r) = Some (ip ++ fr ++ ex, kind ty fr ex, r).
Proof.
  intros [Hd Hi] Hf He Hr ->. destruct Hi as [->|(c & ds & -> & Hc)].
  - change ([to_char 48] ++ fr ++ ex ++ r) with (to_char 48 :: fr ++ ex ++ r). rewrite (step_goto NMinus NZero) by reflexivity. cbn [enter].
    rewrite (body_scan NZero ty fr fp ex x r Hf He) by auto. reflexivity.
  - apply digits_iff, Forall_cons in Hd as [Hcd Hds]. assert (Hb : byte c <> 48) by (intros E; apply Hc; rewrite <- (to_char_byte c), E; reflexivity).
    cbn [app]. rewrite (step_goto NMinus NAny1) by (cbn [number_step]; rewrite (proj2 (Z.eqb_neq _ 48) Hb), Hcd; reflexivity). cbn [enter].
    rewrite run_digits by auto. rewrite (body_scan NAny1 ty fr fp ex x r Hf He) by auto. reflexivity.
Qed.
Lemma exponent_eq ex x : exponent ex x -> exponent_value ex = x.
Proof.
  destruct 1 as [|e sg ds He Hsg Hn Hd]; [reflexivity|]. apply digits_iff in Hd. destruct (stop_digit ds Hd Hn) as (d & ds' & -> & _ & _ & Hb).
  rewrite natural_value. destruct Hsg as [->|[->| ->]].
  - cbn [app exponent_value]. rewrite (proj2 (Z.eqb_neq _ 45)), (proj2 (Z.eqb_neq _ 43)) by lia. rewrite decide_False by discriminate. reflexivity.
  - rewrite decide_False by discriminate. reflexivity.
  - rewrite decide_True by reflexivity. reflexivity.
Qed.
Lemma nondigit_tail fr fp ex x : fraction fr fp -> exponent ex x -> match fr ++ ex with [] => True | c :: _ => is_digit c = false end.
Proof.
  intros [[-> ->]|(-> & Hn & Hd)] He; [|reflexivity]. destruct He as [|e sg ds [->| ->] Hsg Hn Hd]; [exact I|reflexivity|reflexivity].
Qed.
Lemma integer_digits_of ip : integer_part ip -> exists c ds, ip = c :: ds /\ digits (c :: ds) /\ 48 <= byte c <= 57.
Proof.
  intros [Hd Hi]. apply digits_iff in Hd. destruct Hi as [->|(c & ds & -> & _)]; (eexists; eexists; split; [reflexivity|]; split; [exact Hd|]);
    apply Forall_inv in Hd; apply digit_bounds, Hd.
Qed.
Lemma number_strtod T sg ip fr fp ex x : (sg = [] \/ sg = lit "-") -> integer_part ip -> fraction fr fp -> exponent ex x ->
  strtod T (sg ++ ip ++ fr ++ ex) = nearest T (bool_decide (sg = lit "-")) (decimal (natural (ip ++ fp)) (x - len fp)).
Proof.
  intros Hsg Hi Hf He. destruct (integer_digits_of ip Hi) as (c & ds & Eip & Hd & Hb).
  assert (Hsp : span_digits (ip ++ fr ++ ex) = (ip, fr ++ ex)) by (rewrite Eip; apply span_all; [exact Hd|eapply nondigit_tail; eassumption]).
  assert (Hfr : (match fr ++ ex with c :: s' => if byte c =? 46 then span_digits s' else ([], fr ++ ex) | [] => ([], fr ++ ex) end) = (fp, ex)).
  { destruct Hf as [[-> ->]|(-> & Hn & Hf)].
    - cbn [app]. destruct He as [|e sg' ds' [->| ->] Hsg' Hn Hd']; reflexivity.
    - change ((lit "." ++ fp) ++ ex) with ("."%char :: fp ++ ex). cbv iota.
      change (byte "." =? 46) with true. cbv iota. apply span_all; [apply digits_iff, Hf|].
      destruct He as [|e sg' ds' [->| ->] Hsg' Hn' Hd']; [exact I|reflexivity|reflexivity]. }
  unfold strtod. assert (Hs : (match sg ++ ip ++ fr ++ ex with c :: s' => if byte c =? 45 then (true, s') else (false, sg ++ ip ++ fr ++ ex) | [] => (false, sg ++ ip ++ fr ++ ex) end) =
    (bool_decide (sg = lit "-"), ip ++ fr ++ ex)).
  { destruct Hsg as [->| ->]; [|reflexivity]. rewrite Eip. cbn [app]. rewrite (proj2 (Z.eqb_neq _ 45)) by lia. reflexivity. }
  rewrite Hs. cbv beta iota. rewrite Hsp. cbv beta iota. rewrite Hfr. rewrite (exponent_eq _ _ He), natural_value. reflexivity.
Qed.
Definition token_of (T : numtext) (sg ip fr fp ex : str) (x : Z) : token :=
  let z := if decide (sg = lit "-") then - natural ip else natural ip in
  let f := nearest T (bool_decide (sg = lit "-")) (decimal (natural (ip ++ fp)) (x - len fp)) in
  match fr ++ ex with
  | [] => if (- 2 ^ 63 <=? z) && (z <? 2 ^ 64) then TInt z else TFloat f
  | _ => TFloat f
  end.
Lemma natural_nonneg ds : digits ds -> 0 <= natural ds.
Proof.
  intros H. rewrite natural_value. assert (G : forall ds a, digits ds -> 0 <= a -> 0 <= digits_value a ds); [|apply G; [exact H|lia]].
  clear. intros ds. induction ds as [|c ds IH]; intros a Hd Ha; [exact Ha|]. apply Forall_cons in Hd as [Hc Hd]. cbn [digits_value]. apply IH; [exact Hd|]. apply digit_bounds in Hc. lia.
Qed.
Lemma token_value T sg ip fr fp ex x b : (sg = [] \/ sg = lit "-") -> integer_part ip -> fraction fr fp -> exponent ex x -> b = sg ++ ip ++ fr ++ ex ->
  match kind (if decide (sg = lit "-") then NInteger else NUnsigned) fr ex with
  | NUnsigned => let x := digits_value 0 b in if x <? W64 then TInt x else TFloat (strtod T b)
  | NInteger => let x := signed_value b in if LL_MIN <=? x then TInt x else TFloat (strtod T b)
  | NFloat => TFloat (strtod T b)
  end = token_of T sg ip fr fp ex x.
Proof.
  intros Hsg Hi Hf He ->. rewrite (number_strtod T sg ip fr fp ex x Hsg Hi Hf He). unfold kind, token_of.
  destruct (fr ++ ex) eqn:E; [|reflexivity]. apply app_nil in E as [-> ->]. rewrite !app_nil_r.
  destruct (integer_digits_of ip Hi) as (c & ds & Eip & Hd & Hb). assert (Hnn : 0 <= natural ip) by (rewrite Eip; apply natural_nonneg, Hd).
  change (2 ^ 64) with W64. change (- 2 ^ 63) with LL_MIN. unfold LL_MIN, W64. destruct Hsg as [->| ->].
  - rewrite !decide_False by discriminate. cbv zeta. cbn [app]. rewrite <- natural_value.
    replace (-9223372036854775808 <=? natural ip) with true by lia. reflexivity.
  - rewrite !decide_True by reflexivity. cbv zeta.
    assert (Es : signed_value (lit "-" ++ ip) = - natural ip) by (rewrite natural_value; reflexivity). rewrite Es.
    replace (- natural ip <? 18446744073709551616) with true by lia. rewrite andb_true_r. reflexivity.
Qed.
Lemma scan_number_ok T sg ip fr fp ex x r : (sg = [] \/ sg = lit "-") -> integer_part ip -> fraction fr fp -> exponent ex x -> stop r ->
  scan T ((sg ++ ip ++ fr ++ ex) ++ r) = (token_of T sg ip fr fp ex x, r).
Proof.
  intros Hsg Hi Hf He Hr. destruct (integer_digits_of ip Hi) as (c & ds & Eip & Hd & Hb). rewrite <- !app_assoc. rewrite <- (token_value T sg ip fr fp ex x _ Hsg Hi Hf He eq_refl).
  destruct Hsg as [->| ->].
  - rewrite decide_False by discriminate. rewrite Eip. cbn [app]. apply Forall_cons in Hd as [Hc Hds]. rewrite scan_number_start by (rewrite Hc; apply orb_true_r).
    unfold scan_number. rewrite (proj2 (Z.eqb_neq _ 45)) by lia.
    assert (Es : scan_digits (if byte c =? 48 then NZero else NAny1) (enter (if byte c =? 48 then NZero else NAny1) NUnsigned) (ds ++ fr ++ ex ++ r) =
      Some (ds ++ fr ++ ex, kind NUnsigned fr ex, r)).
    { destruct Hi as [_ [E0|(c' & ds' & E0 & Hc')]].
      - rewrite E0 in Eip. injection Eip as <- <-. cbn [app]. change (byte (to_char 48) =? 48) with true. cbv iota. apply (body_scan NZero _ fr fp ex x r Hf He); auto.
      - rewrite E0 in Eip. injection Eip as -> ->. assert (Hb0 : byte c <> 48) by (intros E; apply Hc'; rewrite <- (to_char_byte c), E; reflexivity).
        rewrite (proj2 (Z.eqb_neq _ 48) Hb0). rewrite run_digits by auto. cbn [enter]. rewrite (body_scan NAny1 _ fr fp ex x r Hf He) by auto. reflexivity. }
    rewrite Es. reflexivity.
  - rewrite decide_True by reflexivity. change (lit "-" ++ ip ++ fr ++ ex ++ r) with ("-"%char :: ip ++ fr ++ ex ++ r). rewrite scan_number_start by reflexivity.
    unfold scan_number. change (byte "-" =? 45) with true. cbv iota. rewrite (part_scan NMinus _ ip fr fp ex x r Hi Hf He Hr eq_refl). reflexivity.
Qed.
Lemma number_scan T t j r : number T t j -> stop r -> exists tok, scan T (t ++ r) = (tok, r) /\
  (forall fuel s, parse_value T (S fuel) tok s = Ok (j, s)) /\ tok <> TEndArray /\ tok <> TEndObject.
Proof.
  intros H Hr. destruct H as [sg ip Hsg Hi z Hz|sg ip fr fp ex x Hsg Hi Hf He Hz f Hfin].
  - pose proof (scan_number_ok T sg ip [] [] [] 0 r Hsg Hi (or_introl (conj eq_refl eq_refl)) exponent_none Hr) as E. rewrite !app_nil_r in E.
    rewrite E. exists (TInt z). split; [f_equal; unfold token_of; cbn [app]; fold z; replace ((- 2 ^ 63 <=? z) && (z <? 2 ^ 64)) with true by lia; reflexivity|].
    split; [reflexivity|split; discriminate].
  - pose proof (scan_number_ok T sg ip fr fp ex x r Hsg Hi Hf He Hr) as E. rewrite E. exists (TFloat f). split.
    + f_equal. unfold token_of. fold f. destruct (fr ++ ex) eqn:Eo; [|reflexivity]. apply app_nil in Eo as [-> ->]. specialize (Hz eq_refl eq_refl). cbv zeta in Hz.
      match goal with |- context [(- 2 ^ 63 <=? ?z) && _] => replace ((- 2 ^ 63 <=? z) && (z <? 2 ^ 64)) with false by lia end. reflexivity.
    + split; [intros fuel s; cbn [parse_value]; rewrite Hfin; reflexivity|split; discriminate].
Qed.

(** What scan_digits consumes. *)
Definition tail_of (st : nstate) (b : str) (ty ty' : ntype) : Prop :=
  match st with
  | NAny2 => digits b /\ ty' = ty
  | NSign => digits b /\ b <> [] /\ ty' = ty
  | NExponent => (exists sg ds, b = sg ++ ds /\ (sg = [] \/ sg = lit "+" \/ sg = lit "-") /\ ds <> [] /\ digits ds) /\ ty' = ty
  | NDecimal2 => (exists ds ex x, b = ds ++ ex /\ digits ds /\ exponent ex x) /\ (ty = NFloat -> ty' = NFloat)
  | NDecimal1 => (exists ds ex x, b = ds ++ ex /\ ds <> [] /\ digits ds /\ exponent ex x) /\ (ty = NFloat -> ty' = NFloat)
  | NZero => exists fr fp ex x, b = fr ++ ex /\ fraction fr fp /\ exponent ex x /\ ty' = kind ty fr ex
  | NAny1 => exists ds fr fp ex x, b = ds ++ fr ++ ex /\ digits ds /\ fraction fr fp /\ exponent ex x /\ ty' = kind ty fr ex
  | NMinus => exists ip fr fp ex x, b = ip ++ fr ++ ex /\ integer_part ip /\ fraction fr fp /\ exponent ex x /\ ty' = kind ty fr ex
  end.
Lemma number_end_tail st ty : number_end st = true -> tail_of st [] ty ty.
Proof.
  destruct st; try discriminate; intros _; cbn [tail_of].
  - exists [], [], [], 0. split; [reflexivity|]. split; [left; auto|]. split; [constructor|reflexivity].
  - exists [], [], [], [], 0. split; [reflexivity|]. split; [constructor|]. split; [left; auto|]. split; [constructor|reflexivity].
  - split; [|auto]. exists [], [], 0. split; [reflexivity|]. split; constructor.
  - split; [constructor|reflexivity].
Qed.
Lemma done_end st c : number_step st c = NDone -> number_end st = true.
Proof. destruct st; cbn [number_step]; repeat match goal with |- context [if ?b then _ else _] => destruct b end; try discriminate; reflexivity. Qed.
Lemma expo_cons c b ty ty' : is_exp c = true -> tail_of NExponent b (enter NExponent ty) ty' -> exists x, exponent (c :: b) x /\ ty' = NFloat.
Proof.
  intros Hc [(sg & ds & -> & Hsg & Hn & Hd) ->]. eexists. split; [|reflexivity]. apply exponent_some; [|exact Hsg|exact Hn|apply digits_iff, Hd].
  unfold is_exp in Hc. destruct (Z.eqb_spec (byte c) 101) as [E|]; [left|right]; rewrite <- (to_char_byte c); [rewrite E; reflexivity|].
  assert (E : byte c = 69) by lia. rewrite E. reflexivity.
Qed.
Lemma dec_cons c b ty ty' : byte c = 46 -> tail_of NDecimal1 b (enter NDecimal1 ty) ty' -> exists fr fp ex x, c :: b = fr ++ ex /\ fraction fr fp /\ exponent ex x /\
  fr <> [] /\ ty' = NFloat.
Proof.
  intros Hc [(ds & ex & x & -> & Hn & Hd & He) Ht]. exists (lit "." ++ ds), ds, ex, x.
  assert (Ec : c = "."%char) by (rewrite <- (to_char_byte c), Hc; reflexivity). subst c. split; [reflexivity|]. split; [right; split; [reflexivity|]; split; [exact Hn|apply digits_iff, Hd]|].
  split; [exact He|]. split; [discriminate|]. apply Ht. reflexivity.
Qed.
Lemma scan_digits_sound s : forall st ty b ty' r, scan_digits st ty s = Some (b, ty', r) -> s = b ++ r /\ tail_of st b ty ty'.
Proof.
  induction s as [|c s IH]; intros st ty b ty' r H; cbn [scan_digits] in H.
  - destruct (number_end st) eqn:E; [|discriminate]. injection H as <- <- <-. split; [reflexivity|apply number_end_tail, E].
  - destruct (number_step st c) as [st'| |] eqn:Es; [|injection H as <- <- <-; split; [reflexivity|apply number_end_tail; eapply done_end; eassumption]|discriminate].
    destruct (scan_digits st' (enter st' ty) s) as [[[b1 ty1] r1]|] eqn:E1; [|discriminate]. injection H as <- <- <-.
    destruct (IH _ _ _ _ _ E1) as [-> Ht]. split; [reflexivity|]. clear IH E1.
    assert (Hk : forall ty fr ex, fr <> [] \/ ex <> [] -> kind ty fr ex = NFloat) by (intros ? [|] [|] [?|?]; try congruence; reflexivity).
    destruct st; cbn [number_step] in Es; cbn [tail_of].
    + destruct (Z.eqb_spec (byte c) 48) as [E0|N0].
      * injection Es as <-. destruct Ht as (fr & fp & ex & x & -> & Hf & He & ->). exists [to_char 48], fr, fp, ex, x.
        rewrite <- (to_char_byte c), E0. split; [reflexivity|]. split; [split; [repeat constructor; vm_compute; discriminate|left; reflexivity]|]. auto.
      * destruct (is_digit c) eqn:Ed; [|discriminate]. injection Es as <-. destruct Ht as (ds & fr & fp & ex & x & -> & Hd & Hf & He & ->). exists (c :: ds), fr, fp, ex, x.
        split; [reflexivity|]. split; [|auto]. split; [apply digits_iff; constructor; assumption|]. right. exists c, ds. split; [reflexivity|]. intros ->. apply N0. reflexivity.
    + destruct (Z.eqb_spec (byte c) 46) as [E0|N0].
      * injection Es as <-. destruct (dec_cons c b1 ty ty1 E0 Ht) as (fr & fp & ex & x & E & Hf & He & Hne & ->). exists fr, fp, ex, x.
        split; [exact E|]. split; [exact Hf|]. split; [exact He|]. symmetry. apply Hk. left. exact Hne.
      * destruct (is_exp c) eqn:Ee; [|discriminate]. injection Es as <-. destruct (expo_cons c b1 ty ty1 Ee Ht) as (x & He & ->). exists [], [], (c :: b1), x.
        split; [reflexivity|]. split; [left; auto|]. split; [exact He|reflexivity].
    + destruct (is_digit c) eqn:Ed.
      * injection Es as <-. destruct Ht as (ds & fr & fp & ex & x & -> & Hd & Hf & He & ->). exists (c :: ds), fr, fp, ex, x.
        split; [reflexivity|]. split; [constructor; assumption|]. auto.
      * destruct (Z.eqb_spec (byte c) 46) as [E0|N0].
        -- injection Es as <-. destruct (dec_cons c b1 ty ty1 E0 Ht) as (fr & fp & ex & x & E & Hf & He & Hne & ->). exists [], fr, fp, ex, x.
           split; [exact E|]. split; [constructor|]. split; [exact Hf|]. split; [exact He|]. symmetry. apply Hk. left. exact Hne.
        -- destruct (is_exp c) eqn:Ee; [|discriminate]. injection Es as <-. destruct (expo_cons c b1 ty ty1 Ee Ht) as (x & He & ->). exists [], [], [], (c :: b1), x.
           split; [reflexivity|]. split; [constructor|]. split; [left; auto|]. split; [exact He|reflexivity].
    + destruct (is_digit c) eqn:Ed; [|discriminate]. injection Es as <-. destruct Ht as [(ds & ex & x & -> & Hd & He) Ht]. split; [|exact Ht].
      exists (c :: ds), ex, x. split; [reflexivity|]. split; [discriminate|]. split; [constructor; assumption|exact He].
    + destruct (is_digit c) eqn:Ed.
      * injection Es as <-. destruct Ht as [(ds & ex & x & -> & Hd & He) Ht]. split; [|exact Ht].
        exists (c :: ds), ex, x. split; [reflexivity|]. split; [constructor; assumption|exact He].
      * destruct (is_exp c) eqn:Ee; [|discriminate]. injection Es as <-. destruct (expo_cons c b1 ty ty1 Ee Ht) as (x & He & ->). split; [|auto].
        exists [], (c :: b1), x. split; [reflexivity|]. split; [constructor|exact He].
    + destruct ((byte c =? 43) || (byte c =? 45)) eqn:Esg.
      * injection Es as <-. destruct Ht as (Hd & Hn & ->). split; [|reflexivity]. exists [c], b1. split; [reflexivity|]. split; [|auto]. right.
        destruct (Z.eqb_spec (byte c) 43) as [E0|]; [left|right]; rewrite <- (to_char_byte c); [rewrite E0; reflexivity|]. assert (E0 : byte c = 45) by lia. rewrite E0. reflexivity.
      * destruct (is_digit c) eqn:Ed; [|discriminate]. injection Es as <-. destruct Ht as [Hd ->]. split; [|reflexivity]. exists [], (c :: b1). split; [reflexivity|].
        split; [auto|]. split; [discriminate|constructor; assumption].
    + destruct (is_digit c) eqn:Ed; [|discriminate]. injection Es as <-. destruct Ht as [Hd ->]. split; [constructor; assumption|]. split; [discriminate|reflexivity].
    + destruct (is_digit c) eqn:Ed; [|discriminate]. injection Es as <-. destruct Ht as [Hd ->]. split; [constructor; assumption|reflexivity].
Qed.
Lemma scan_number_sound T c s tok r : (byte c =? 45) || is_digit c = true -> scan_number T c s = (tok, r) -> tok <> TError ->
  exists sg ip fr fp ex x, c :: s = (sg ++ ip ++ fr ++ ex) ++ r /\ (sg = [] \/ sg = lit "-") /\ integer_part ip /\ fraction fr fp /\ exponent ex x /\
    tok = token_of T sg ip fr fp ex x.
Proof.
  intros Hc H Hn. unfold scan_number in H.
  destruct (scan_digits _ _ s) as [[[b ty] r']|] eqn:E; [|injection H as <- <-; congruence]. injection H as Ht <-.
  apply scan_digits_sound in E as [-> Htail]. destruct (Z.eqb_spec (byte c) 45) as [E45|N45].
  - assert (Ec : c = "-"%char) by (rewrite <- (to_char_byte c), E45; reflexivity). subst c. destruct Htail as (ip & fr & fp & ex & x & -> & Hi & Hf & He & ->).
    exists (lit "-"), ip, fr, fp, ex, x. split; [reflexivity|]. split; [auto|]. split; [exact Hi|]. split; [exact Hf|]. split; [exact He|].
    rewrite <- (token_value T (lit "-") ip fr fp ex x _ (or_intror eq_refl) Hi Hf He eq_refl). rewrite decide_True by reflexivity. rewrite <- Ht. reflexivity.
  - cbn [orb] in Hc. assert (Hx : exists ip fr fp ex x, c :: b = ip ++ fr ++ ex /\ integer_part ip /\ fraction fr fp /\ exponent ex x /\ ty = kind NUnsigned fr ex).
    { destruct (Z.eqb_spec (byte c) 48) as [E48|N48].
      - destruct Htail as (fr & fp & ex & x & -> & Hf & He & ->). exists [to_char 48], fr, fp, ex, x. rewrite <- (to_char_byte c), E48. split; [reflexivity|].
        split; [split; [repeat constructor; vm_compute; discriminate|left; reflexivity]|]. auto.
      - destruct Htail as (ds & fr & fp & ex & x & -> & Hd & Hf & He & ->). exists (c :: ds), fr, fp, ex, x. split; [reflexivity|]. split; [|auto].
        split; [apply digits_iff; constructor; assumption|]. right. exists c, ds. split; [reflexivity|]. intros ->. apply N48. reflexivity. }
    destruct Hx as (ip & fr & fp & ex & x & Eb & Hi & Hf & He & ->). exists [], ip, fr, fp, ex, x. cbn [app]. rewrite <- Eb. split; [reflexivity|].
    split; [auto|]. split; [exact Hi|]. split; [exact Hf|]. split; [exact He|].
    rewrite <- (token_value T [] ip fr fp ex x _ (or_introl eq_refl) Hi Hf He eq_refl). cbn [app]. rewrite <- Eb, decide_False by discriminate. rewrite <- Ht. unfold kind. destruct (fr ++ ex); reflexivity.
Qed.
