(** Numbers survive dump_integer / dump_float and scan_number. *)
From Coq Require Import SpecFloat QArith Qcanon Qpower.
From Verif Require Import Prelude Bytes Float32 Json Grisu GrisuSpec GrisuProofs FloatConv JsonText SpecText BytesProofs TextProofs TextString.
Local Open Scope Z_scope.

Definition digits (l : str) : Prop := Forall (fun c => is_digit c = true) l.
(** What may follow a number: nothing that could continue it. *)
Definition stop (r : str) : Prop :=
  match r with [] => True | c :: _ => is_digit c = false /\ byte c <> 46 /\ is_exp c = false end.

Lemma len_app {A} (l k : list A) : len (l ++ k) = len l + len k. Proof. unfold len. rewrite app_length. lia. Qed.

(** ** The state machine *)
Definition adds (l : str) (o : option (str * ntype * str)) : option (str * ntype * str) :=
  match o with Some (b, ty, r) => Some (l ++ b, ty, r) | None => None end.
Lemma adds_nil o : adds [] o = o. Proof. destruct o as [[[b ty] r]|]; reflexivity. Qed.
Lemma adds_adds l k o : adds l (adds k o) = adds (l ++ k) o.
Proof. destruct o as [[[b ty] r]|]; cbn; [rewrite app_assoc|]; reflexivity. Qed.
Lemma step_goto st st' ty c s : number_step st c = Goto st' -> scan_digits st ty (c :: s) = adds [c] (scan_digits st' (enter st' ty) s).
Proof. intros H. cbn [scan_digits]. rewrite H. destruct (scan_digits st' (enter st' ty) s) as [[[b ty'] r]|]; reflexivity. Qed.
Lemma run_digits st ty ds r : (st = NAny1 \/ st = NDecimal2 \/ st = NAny2) -> digits ds ->
  scan_digits st ty (ds ++ r) = adds ds (scan_digits st ty r).
Proof.
  intros Hst Hd. induction Hd as [|c ds Hc Hd IH]; [rewrite adds_nil; reflexivity|].
  change ((c :: ds) ++ r) with (c :: (ds ++ r)).
  assert (Hs : number_step st c = Goto st) by (destruct Hst as [->|[->| ->]]; cbn [number_step]; rewrite Hc; reflexivity).
  rewrite (step_goto st st) by exact Hs. assert (He : enter st ty = ty) by (destruct Hst as [->|[->| ->]]; reflexivity).
  rewrite He, IH, adds_adds. reflexivity.
Qed.
Lemma run_stop st ty r : number_end st = true -> stop r -> scan_digits st ty r = Some ([], ty, r).
Proof.
  intros He Hr. destruct r as [|c r]; cbn [scan_digits]; [rewrite He; reflexivity|]. destruct Hr as (H1 & H2 & H3).
  destruct st; try discriminate; cbn [number_step]; rewrite ?H1, ?H3, ?(proj2 (Z.eqb_neq _ 46) H2); reflexivity.
Qed.
Lemma digits_end st ty ds r : (st = NAny1 \/ st = NDecimal2 \/ st = NAny2) -> digits ds -> stop r ->
  scan_digits st ty (ds ++ r) = Some (ds, ty, r).
Proof.
  intros Hst Hd Hr. rewrite run_digits, run_stop by (try assumption; destruct Hst as [->|[->| ->]]; reflexivity).
  cbn [adds]. rewrite app_nil_r. reflexivity.
Qed.

(** ** Integers *)
Lemma digits_value_app l k : forall a, digits_value a (l ++ k) = digits_value (digits_value a l) k.
Proof. induction l as [|c l IH]; intros a; [reflexivity|]. cbn [app digits_value]. apply IH. Qed.
Lemma digits_value_shift l : forall a, digits_value a l = a * 10 ^ len l + digits_value 0 l.
Proof.
  induction l as [|c l IH]; intros a; cbn [digits_value]; [rewrite len_nil; lia|].
  rewrite IH, (IH (0 * 10 + (byte c - 48))), len_cons. replace (1 + len l) with (Z.succ (len l)) by lia.
  rewrite Z.pow_succ_r by apply len_nonneg. lia.
Qed.
Lemma byte_digit d : 0 <= d <= 9 -> byte (to_char (48 + d)) = 48 + d.
Proof. intros H. rewrite byte_to_char, Z.mod_small by lia. reflexivity. Qed.
Lemma digit_is d : 0 <= d <= 9 -> is_digit (to_char (48 + d)) = true.
Proof. intros H. unfold is_digit, in_range. rewrite byte_digit by exact H. lia. Qed.

Lemma integer_digits_ok : forall room x acc, Z.abs x < 10 ^ Z.of_nat room -> exists ds,
  integer_digits room x acc = Ok (ds ++ acc) /\ digits ds /\ digits_value 0 ds = Z.abs x /\
  (x = 0 -> ds = []) /\ (x <> 0 -> exists c ds', ds = c :: ds' /\ byte c <> 48).
Proof.
  induction room as [|room IH]; intros x acc Hx.
  - change (10 ^ Z.of_nat 0) with 1 in Hx. assert (x = 0) by lia. subst x. exists []. cbn. repeat split; auto; try constructor; congruence.
  - cbn [integer_digits]. destruct (Z.eqb_spec x 0) as [->|Hx0].
    { exists []. repeat split; auto; try constructor; congruence. }
    pose proof (Z.quot_rem' x 10) as Hqr. pose proof (Z.rem_bound_abs x 10 ltac:(lia)) as Hr. rewrite (Z.abs_eq 10) in Hr by lia.
    assert (Hsg : Z.abs x = 10 * Z.abs (x ÷ 10) + Z.abs (Z.rem x 10)).
    { pose proof (Z.quot_rem' (Z.abs x) (Z.abs 10)) as Hq. rewrite Z.quot_abs, Z.rem_abs in Hq by lia. change (Z.abs 10) with 10 in Hq. exact Hq. }
    destruct (IH (x ÷ 10) (to_char (48 + Z.abs (Z.rem x 10)) :: acc)) as (ds & E & Hd & Hv & H0 & H1).
    { rewrite Nat2Z.inj_succ, Z.pow_succ_r in Hx by lia. lia. }
    exists (ds ++ [to_char (48 + Z.abs (Z.rem x 10))]). rewrite E, <- app_assoc. split; [reflexivity|].
    split; [apply Forall_app; split; [exact Hd|constructor; [apply digit_is; lia|constructor]]|].
    split; [rewrite digits_value_app, Hv; cbn [digits_value]; rewrite byte_digit by lia; lia|].
    split; [congruence|]. intros _. destruct (Z.eq_dec (x ÷ 10) 0) as [Eq|Nq].
    + rewrite (H0 Eq). eexists _, _. split; [reflexivity|]. rewrite byte_digit by lia. rewrite Eq in Hsg. lia.
    + destruct (H1 Nq) as (c & ds' & -> & Hc). eexists _, _. split; [reflexivity|exact Hc].
Qed.

Definition in_json_int (z : Z) : Prop := LL_MIN <= z < W64.
Lemma skip_nonspace c s : is_space c = false -> skip_space (c :: s) = c :: s.
Proof. intros H. cbn [skip_space]. rewrite H. reflexivity. Qed.
Lemma scan_number_start T c s : (byte c =? 45) || is_digit c = true -> scan T (c :: s) = scan_number T c s.
Proof.
  intros H. unfold scan. unfold is_digit, in_range in H. rewrite skip_nonspace by (unfold is_space; lia). cbv zeta.
  rewrite (proj2 (Z.eqb_neq _ 91)), (proj2 (Z.eqb_neq _ 93)), (proj2 (Z.eqb_neq _ 123)), (proj2 (Z.eqb_neq _ 125)), (proj2 (Z.eqb_neq _ 58)),
    (proj2 (Z.eqb_neq _ 44)), (proj2 (Z.eqb_neq _ 116)), (proj2 (Z.eqb_neq _ 102)), (proj2 (Z.eqb_neq _ 110)), (proj2 (Z.eqb_neq _ 34)) by lia.
  unfold is_digit, in_range. rewrite H. reflexivity.
Qed.
Lemma digit_bounds c : is_digit c = true -> 48 <= byte c <= 57. Proof. unfold is_digit, in_range. lia. Qed.

Lemma dump_integer_scan T z : in_json_int z -> exists t, dump_integer z = Ok t /\ t <> [] /\
  forall r, stop r -> scan T (t ++ r) = (TInt z, r).
Proof.
  intros Hz. unfold dump_integer. destruct (Z.eqb_spec z 0) as [->|Hz0].
  { exists (lit "0"). split; [reflexivity|]. split; [discriminate|]. intros r Hr. cbn [lit String.list_ascii_of_string app].
    rewrite scan_number_start by reflexivity. unfold scan_number. change (byte "0"%char) with 48. cbn [Z.eqb Pos.eqb enter].
    rewrite run_stop by (assumption || reflexivity). reflexivity. }
  destruct (integer_digits_ok 63 z []) as (ds & E & Hd & Hv & _ & H1).
  { unfold in_json_int, LL_MIN, W64 in Hz. assert (18446744073709551616 < 10 ^ Z.of_nat 63) by (vm_compute; reflexivity). lia. }
  rewrite E, app_nil_r. cbn [rbind]. destruct (H1 Hz0) as (c & ds' & -> & Hc). pose proof (Forall_inv Hd) as Hcd. cbv beta in Hcd. pose proof (Forall_inv_tail Hd) as Hd'.
  pose proof (digit_bounds c Hcd) as Hb.
  destruct (Z.ltb_spec z 0) as [Hneg|Hpos].
  - eexists. split; [reflexivity|]. split; [discriminate|]. intros r Hr. cbn [app]. rewrite scan_number_start by reflexivity. unfold scan_number.
    change (byte (to_char 45)) with 45. cbn [Z.eqb Pos.eqb enter].
    rewrite (step_goto NMinus NAny1) by (cbn [number_step]; rewrite (proj2 (Z.eqb_neq _ 48) Hc), Hcd; reflexivity).
    cbn [enter]. rewrite digits_end by (auto; exact Hd'). cbn [adds app].
    assert (Es : signed_value (to_char 45 :: c :: ds') = z).
    { cbn [signed_value]. change (byte (to_char 45) =? 45) with true. cbv iota. rewrite Hv. lia. }
    rewrite Es. rewrite (proj2 (Z.leb_le _ _)) by (unfold in_json_int in Hz; lia). reflexivity.
  - eexists. split; [reflexivity|]. split; [discriminate|]. intros r Hr. cbn [app]. rewrite scan_number_start by (rewrite Hcd; apply orb_true_r). unfold scan_number.
    rewrite (proj2 (Z.eqb_neq _ 45)), (proj2 (Z.eqb_neq _ 48)) by lia. cbn [enter]. rewrite digits_end by (auto; exact Hd').
    cbv zeta. rewrite Hv, Z.abs_eq by lia. rewrite (proj2 (Z.ltb_lt _ _)) by (unfold in_json_int in Hz; lia). reflexivity.
Qed.

(** ** Floats *)
Lemma decimal_shift m e i : 0 <= i -> decimal (m * 10 ^ i) (e - i) = decimal m e.
Proof.
  intros Hi. unfold decimal. apply Q2Qc_eq_iff. rewrite inject_Z_mult, <- Qmult_assoc.
  assert (E : (inject_Z (10 ^ i) * (10 # 1) ^ (e - i) == (10 # 1) ^ e)%Q).
  { rewrite Zpower_Qpower by exact Hi. change (inject_Z 10) with (10 # 1)%Q.
    rewrite <- Qpower_plus by (intros H; discriminate H). replace (i + (e - i)) with e by lia. reflexivity. }
  rewrite E. reflexivity.
Qed.

Lemma digit_chars ds : Forall (fun d => 0 <= d <= 9) ds -> digits (digit_char <$> ds).
Proof. intros H. apply Forall_fmap. eapply Forall_impl; [exact H|]. intros d Hd. unfold compose. apply digit_is. exact Hd. Qed.
Lemma value_of ds : Forall (fun d => 0 <= d <= 9) ds -> forall a, digits_value a (digit_char <$> ds) = fold_left (fun a d => a * 10 + d) ds a.
Proof.
  intros H. induction H as [|d ds Hd H IH]; intros a; [reflexivity|]. rewrite fmap_cons. cbn [digits_value fold_left].
  unfold digit_char at 1. rewrite byte_digit by exact Hd. rewrite IH. f_equal. lia.
Qed.
Lemma zeros_digits n : digits (zeros n).
Proof. unfold zeros. apply Forall_forall. intros c Hc. apply elem_of_list_In, repeat_spec in Hc. subst c. reflexivity. Qed.
Lemma zeros_len n : 0 <= n -> len (zeros n) = n.
Proof. intros H. unfold zeros, len. rewrite repeat_length. lia. Qed.
Lemma zeros_value n : forall a, digits_value a (zeros n) = a * 10 ^ len (zeros n).
Proof.
  unfold zeros. induction (Z.to_nat n) as [|k IH]; intros a; cbn [repeat digits_value]; [rewrite len_nil; lia|].
  rewrite IH, len_cons. change (byte (digit_char 0)) with 48. replace (1 + len (repeat (digit_char 0) k)) with (Z.succ (len (repeat (digit_char 0) k))) by lia.
  rewrite Z.pow_succ_r by apply len_nonneg. lia.
Qed.
Lemma span_all ds r : digits ds -> match r with [] => True | c :: _ => is_digit c = false end -> span_digits (ds ++ r) = (ds, r).
Proof.
  intros H Hr. induction H as [|c ds Hc H IH]; cbn [app span_digits].
  - destruct r as [|c r]; [reflexivity|]. cbn [span_digits]. rewrite Hr. reflexivity.
  - rewrite Hc, IH. reflexivity.
Qed.

(** A decimal text: digits, an optional fraction, an optional exponent. *)
Definition frac_text (fp : str) : str := if decide (fp = []) then [] else to_char 46 :: fp.
Definition exp_text (ex : option Z) : str := match ex with None => [] | Some e => to_char 101 :: append_exponent e end.
Definition exp_of (ex : option Z) : Z := match ex with None => 0 | Some e => e end.

Lemma append_exponent_eq e : -1000 < e < 1000 -> exists ds, append_exponent e = (if e <? 0 then to_char 45 else to_char 43) :: ds /\
  digits ds /\ ds <> [] /\ digits_value 0 ds = Z.abs e /\ len ds <= 3.
Proof.
  intros He. unfold append_exponent. cbv zeta. eexists. split; [reflexivity|].
  assert (0 <= Z.abs e < 1000) as H by lia. clear He. set (k := Z.abs e) in *. clearbody k.
  pose proof (Z.div_mod k 10 ltac:(lia)). pose proof (Z.mod_pos_bound k 10 ltac:(lia)).
  pose proof (Z.div_mod k 100 ltac:(lia)). pose proof (Z.mod_pos_bound k 100 ltac:(lia)).
  pose proof (Z.div_mod (k mod 100) 10 ltac:(lia)). pose proof (Z.mod_pos_bound (k mod 100) 10 ltac:(lia)).
  unfold digits, digit_char. destruct (Z.ltb_spec k 10); [|destruct (Z.ltb_spec k 100)].
  all: split; [repeat (constructor; [apply digit_is; lia|]); constructor|].
  all: split; [discriminate|].
  all: cbn [digits_value]; rewrite !byte_digit by lia; split; [lia|vm_compute; congruence].
Qed.

Lemma stop_comma_like r : stop r -> match r with [] => True | c :: _ => is_digit c = false end.
Proof. destruct r; [auto|]. intros [H _]. exact H. Qed.

(** scanning -?ip[.fp][e+-xx] *)
Lemma scan_tail st ip fp ex r : (st = NZero /\ ip = [] \/ st = NAny1 /\ digits ip) -> digits fp -> (fp <> [] \/ ex <> None) ->
  match ex with Some e => -1000 < e < 1000 | None => True end -> stop r -> forall ty,
  scan_digits st ty (ip ++ frac_text fp ++ exp_text ex ++ r) = Some (ip ++ frac_text fp ++ exp_text ex, NFloat, r).
Proof.
  intros Hst Hfp Hne Hex Hr ty.
  assert (Hexp : forall st' ty' , (st' = NZero \/ st' = NAny1 \/ st' = NDecimal2) ->
    match ex with Some _ => True | None => ty' = NFloat end ->
    scan_digits st' ty' (exp_text ex ++ r) = Some (exp_text ex, NFloat, r)).
  { intros st' ty' Hs Hty. destruct ex as [e|]; cbn [exp_text].
    - destruct (append_exponent_eq e Hex) as (ds & -> & Hds & Hnn & _). cbn [app].
      rewrite (step_goto st' NExponent) by (destruct Hs as [->|[->| ->]]; reflexivity). cbn [enter].
      rewrite (step_goto NExponent NSign) by (destruct (e <? 0); reflexivity). cbn [enter].
      destruct ds as [|c ds]; [congruence|]. cbn [app]. pose proof (Forall_inv Hds) as Hc. cbv beta in Hc.
      rewrite (step_goto NSign NAny2) by (cbn [number_step]; rewrite Hc; reflexivity). cbn [enter].
      rewrite digits_end by (auto; exact (Forall_inv_tail Hds)). reflexivity.
    - subst ty'. cbn [app]. apply run_stop; [destruct Hs as [->|[->| ->]]; reflexivity|exact Hr]. }
  assert (Hbody : forall st' ty', (st' = NZero \/ st' = NAny1) -> 
    scan_digits st' ty' (frac_text fp ++ exp_text ex ++ r) = Some (frac_text fp ++ exp_text ex, NFloat, r)).
  { intros st' ty' Hs. unfold frac_text. destruct (decide (fp = [])) as [->|Hnf].
    - cbn [app]. apply Hexp; [tauto|]. destruct ex; [auto|]. destruct Hne; congruence.
    - cbn [app]. rewrite (step_goto st' NDecimal1) by (destruct Hs as [->| ->]; reflexivity). cbn [enter].
      destruct fp as [|c fp]; [congruence|]. cbn [app]. pose proof (Forall_inv Hfp) as Hc. cbv beta in Hc.
      rewrite (step_goto NDecimal1 NDecimal2) by (cbn [number_step]; rewrite Hc; reflexivity). cbn [enter].
      rewrite run_digits by (auto; exact (Forall_inv_tail Hfp)). rewrite Hexp; [|tauto|destruct ex; auto].
      reflexivity. }
  destruct Hst as [[-> ->]|[-> Hip]].
  - apply Hbody. auto.
  - rewrite run_digits by auto. rewrite Hbody by auto. reflexivity.
Qed.

Lemma strtod_eq T sg ip fp ex : digits ip -> ip <> [] -> digits fp -> match ex with Some e => -1000 < e < 1000 | None => True end ->
  strtod T ((if sg : bool then [to_char 45] else []) ++ ip ++ frac_text fp ++ exp_text ex) =
  nearest T sg (decimal (digits_value 0 (ip ++ fp)) (exp_of ex - len fp)).
Proof.
  intros Hip Hne Hfp Hex. unfold strtod.
  assert (E1 : (match (if sg then [to_char 45] else []) ++ ip ++ frac_text fp ++ exp_text ex with
    | c :: s' => if byte c =? 45 then (true, s') else (false, (if sg then [to_char 45] else []) ++ ip ++ frac_text fp ++ exp_text ex)
    | [] => (false, (if sg then [to_char 45] else []) ++ ip ++ frac_text fp ++ exp_text ex) end) = (sg, ip ++ frac_text fp ++ exp_text ex)).
  { destruct sg; [reflexivity|]. destruct ip as [|c ip]; [congruence|]. cbn [app]. pose proof (Forall_inv Hip) as Hc. cbv beta in Hc. apply digit_bounds in Hc.
    rewrite (proj2 (Z.eqb_neq _ 45)) by lia. reflexivity. }
  rewrite E1. clear E1.
  assert (Hexp : match exp_text ex with [] => True | c :: _ => is_digit c = false end) by (destruct ex; [reflexivity|exact I]).
  assert (Hev : exponent_value (exp_text ex) = exp_of ex).
  { destruct ex as [e|]; [|reflexivity]. cbn [exp_text exp_of]. destruct (append_exponent_eq e Hex) as (ds & -> & _ & _ & Hv & _). cbn [exponent_value].
    destruct (Z.ltb_spec e 0); [change (byte (to_char 45)) with 45|change (byte (to_char 43)) with 43]; cbn [Z.eqb Pos.eqb]; rewrite Hv; lia. }
  rewrite span_all; [|exact Hip|unfold frac_text; destruct (decide (fp = [])); [exact Hexp|reflexivity]].
  unfold frac_text. destruct (decide (fp = [])) as [->|Hnf].
  - cbn [app]. assert (E2 : (match exp_text ex with c :: s' => if byte c =? 46 then span_digits s' else ([], exp_text ex) | [] => ([], exp_text ex) end) = ([], exp_text ex)) by (destruct ex; reflexivity).
    rewrite E2, Hev. reflexivity.
  - cbn [app]. change (byte (to_char 46) =? 46) with true. cbv iota. rewrite span_all by assumption. rewrite Hev. reflexivity.
Qed.

Lemma float_text_scan T sg ip fp ex r : digits ip -> (ip = [digit_char 0] \/ exists c ip', ip = c :: ip' /\ byte c <> 48) ->
  digits fp -> (fp <> [] \/ ex <> None) -> match ex with Some e => -1000 < e < 1000 | None => True end -> stop r ->
  scan T (((if sg : bool then [to_char 45] else []) ++ ip ++ frac_text fp ++ exp_text ex) ++ r) =
  (TFloat (nearest T sg (decimal (digits_value 0 (ip ++ fp)) (exp_of ex - len fp))), r).
Proof.
  intros Hip Hlead Hfp Hne Hex Hr.
  assert (Hipne : ip <> []) by (destruct Hlead as [->|(c & ip' & -> & _)]; discriminate).
  rewrite <- (strtod_eq T sg ip fp ex Hip Hipne Hfp Hex). destruct ip as [|c ip']; [congruence|].
  pose proof (Forall_inv Hip) as Hc. cbv beta in Hc. pose proof (digit_bounds c Hc) as Hb. pose proof (Forall_inv_tail Hip) as Hip'.
  assert (Hst : exists st, number_step NMinus c = Goto st /\ (if byte c =? 48 then NZero else NAny1) = st /\ (st = NZero /\ ip' = [] \/ st = NAny1 /\ digits ip')).
  { cbn [number_step]. rewrite Hc. destruct Hlead as [[= -> ->]|(c' & ip0 & [= <- <-] & Hn)].
    - exists NZero. auto.
    - rewrite (proj2 (Z.eqb_neq _ 48) Hn). exists NAny1. auto. }
  destruct Hst as (st & H1 & H2 & H3).
  assert (Hent : forall ty, enter st ty = ty) by (intros ty; destruct H3 as [[-> _]|[-> _]]; reflexivity).
  destruct sg; cbn [app]; rewrite <- ?app_assoc.
  - rewrite scan_number_start by reflexivity. unfold scan_number. change (byte (to_char 45)) with 45. cbn [Z.eqb Pos.eqb enter].
    rewrite (step_goto NMinus st) by exact H1. rewrite Hent, (scan_tail st) by assumption. cbn [adds app]. reflexivity.
  - rewrite scan_number_start by (rewrite Hc; apply orb_true_r). unfold scan_number.
    rewrite (proj2 (Z.eqb_neq _ 45)) by lia. rewrite H2. rewrite Hent, (scan_tail st) by assumption. reflexivity.
Qed.

Lemma format_buffer_scan T sg ds x r : 1 <= len ds <= 17 -> Forall (fun d => 0 <= d <= 9) ds -> ds !! 0%nat <> Some 0 -> -400 <= x <= 400 -> stop r ->
  scan T (((if sg : bool then [to_char 45] else []) ++ format_buffer ds x) ++ r) =
  (TFloat (nearest T sg (decimal (fold_left (fun a d => a * 10 + d) ds 0) x)), r).
Proof.
  intros Hk Hds H0 Hx Hr. pose proof (digit_chars ds Hds) as Hd. pose proof (value_of ds Hds 0) as Hv.
  assert (Hlen : len (digit_char <$> ds) = len ds) by (unfold len; rewrite fmap_length; reflexivity).
  assert (Hlead : exists c b, digit_char <$> ds = c :: b /\ byte c <> 48).
  { destruct ds as [|d ds]; [rewrite len_nil in Hk; lia|]. rewrite fmap_cons. eexists _, _. split; [reflexivity|].
    pose proof (Forall_inv Hds) as Hd0. cbv beta in Hd0. unfold digit_char. rewrite byte_digit by lia. cbn in H0. intros E. apply H0. f_equal. lia. }
  unfold format_buffer. cbv zeta. rewrite <- Hv. set (buf := digit_char <$> ds) in *. set (k := len ds) in *. clearbody buf k. clear ds Hds H0 Hv.
  assert (Hsub : forall (l m : str), l ++ m = buf -> digits l /\ digits m).
  { intros l m <-. apply Forall_app in Hd. exact Hd. }
  destruct ((k <=? k + x) && (k + x <=? 15)) eqn:C1.
  { assert (Hx0 : 0 <= x) by lia. replace (k + x - k) with x by lia.
    replace (buf ++ zeros x ++ lit ".0") with ((buf ++ zeros x) ++ frac_text [digit_char 0] ++ exp_text None) by (rewrite <- app_assoc; reflexivity).
    rewrite float_text_scan; try assumption.
    - f_equal. f_equal. f_equal. rewrite !digits_value_app, zeros_value. cbn [digits_value]. change (byte (digit_char 0)) with 48. change (len [digit_char 0]) with 1. cbn [exp_of].
      rewrite zeros_len by exact Hx0. rewrite <- (decimal_shift (digits_value 0 buf) x (x + 1)) by lia.
      replace (x - (x + 1)) with (0 - 1) by lia. f_equal. replace (x + 1) with (Z.succ x) by lia. rewrite Z.pow_succ_r by lia. lia.
    - apply Forall_app. split; [exact Hd|apply zeros_digits].
    - right. destruct Hlead as (c & b & -> & Hc). eexists _, _. split; [reflexivity|exact Hc].
    - constructor; [reflexivity|constructor].
    - left. discriminate.
    - exact I. }
  destruct ((0 <? k + x) && (k + x <=? 15)) eqn:C2.
  { assert (Hn : 0 < k + x < k) by lia. set (i := Z.to_nat (k + x)).
    destruct (Hsub (take i buf) (drop i buf) (take_drop i buf)) as [Ht Hdr].
    assert (Hdl : len (drop i buf) = - x) by (unfold len in *; rewrite drop_length; lia).
    replace (take i buf ++ lit "." ++ drop i buf) with (take i buf ++ frac_text (drop i buf) ++ exp_text None).
    2:{ unfold frac_text. rewrite decide_False by (intros E; rewrite E, len_nil in Hdl; lia). cbn [exp_text]. rewrite app_nil_r. reflexivity. }
    rewrite float_text_scan; try assumption.
    - rewrite take_drop, Hdl. cbn [exp_of]. replace (0 - - x) with x by lia. reflexivity.
    - right. destruct Hlead as (c & b & -> & Hc). destruct i as [|i'] eqn:Ei; [lia|]. eexists _, _. split; [reflexivity|exact Hc].
    - left. intros E. rewrite E, len_nil in Hdl. lia.
    - exact I. }
  destruct ((-4 <? k + x) && (k + x <=? 0)) eqn:C3.
  { replace (lit "0." ++ zeros (- (k + x)) ++ buf) with ([digit_char 0] ++ frac_text (zeros (- (k + x)) ++ buf) ++ exp_text None).
    2:{ unfold frac_text. rewrite decide_False. 2:{ destruct Hlead as (c & b & -> & _). intros E. apply app_eq_nil in E. destruct E; discriminate. }
        cbn [exp_text]. rewrite app_nil_r. reflexivity. }
    rewrite float_text_scan; try assumption.
    - rewrite !digits_value_app, zeros_value. cbn [digits_value]. change (byte (digit_char 0)) with 48. rewrite len_app, zeros_len by lia. cbn [exp_of].
      replace ((0 * 10 + (48 - 48)) * 10 ^ (- (k + x))) with 0 by lia. replace (0 - (- (k + x) + len buf)) with x by lia. reflexivity.
    - constructor; [reflexivity|constructor].
    - left. reflexivity.
    - apply Forall_app. split; [apply zeros_digits|exact Hd].
    - left. destruct Hlead as (c & b & -> & _). intros E. apply app_eq_nil in E. destruct E; discriminate.
    - exact I. }
  destruct (Z.eqb_spec k 1) as [Ek|Ek].
  { replace (buf ++ lit "e" ++ append_exponent (k + x - 1)) with (buf ++ frac_text [] ++ exp_text (Some (k + x - 1))) by reflexivity.
    rewrite float_text_scan; try assumption.
    - assert (E1 : buf ++ [] = buf) by apply app_nil_r. rewrite E1. cbn [exp_of]. replace (k + x - 1 - len (@nil ascii)) with x by (change (len (@nil ascii)) with 0; lia). reflexivity.
    - right. destruct Hlead as (c & b & -> & Hc). eauto.
    - constructor.
    - right. discriminate.
    - lia. }
  destruct (Hsub (take 1 buf) (drop 1 buf) (take_drop 1 buf)) as [Ht Hdr].
  assert (Hdl : len (drop 1 buf) = k - 1) by (unfold len in *; rewrite drop_length; lia).
  replace (take 1 buf ++ lit "." ++ drop 1 buf ++ lit "e" ++ append_exponent (k + x - 1)) with (take 1 buf ++ frac_text (drop 1 buf) ++ exp_text (Some (k + x - 1))).
  2:{ unfold frac_text. rewrite decide_False by (intros E; rewrite E, len_nil in Hdl; lia). reflexivity. }
  rewrite float_text_scan; try assumption.
  - rewrite take_drop, Hdl. cbn [exp_of]. replace (k + x - 1 - (k - 1)) with x by lia. reflexivity.
  - right. destruct Hlead as (c & b & -> & Hc). eexists _, _. split; [reflexivity|exact Hc].
  - right. discriminate.
  - lia.
Qed.
Lemma format_buffer_len ds x : 1 <= len ds <= 17 -> -400 <= x <= 400 -> 1 <= len (format_buffer ds x) <= 23.
Proof.
  intros Hk Hx. unfold format_buffer. cbv zeta.
  assert (Hlen : len (digit_char <$> ds) = len ds) by (unfold len; rewrite fmap_length; reflexivity).
  set (buf := digit_char <$> ds) in *. set (k := len ds) in *. clearbody buf k.
  assert (Hex : forall e, -1000 < e < 1000 -> len (append_exponent e) <= 4).
  { intros e He. destruct (append_exponent_eq e He) as (l & -> & _ & _ & _ & H). rewrite len_cons. lia. }
  assert (Htd : forall i, len (take i buf) + len (drop i buf) = k) by (intros i; rewrite <- len_app, take_drop; exact Hlen).
  destruct ((k <=? k + x) && (k + x <=? 15)) eqn:C1; [|destruct ((0 <? k + x) && (k + x <=? 15)) eqn:C2; [|destruct ((-4 <? k + x) && (k + x <=? 0)) eqn:C3; [|destruct (Z.eqb_spec k 1)]]].
  - rewrite !len_app, zeros_len by lia. change (len (lit ".0")) with 2. lia.
  - rewrite !len_app. change (len (lit ".")) with 1. pose proof (Htd (Z.to_nat (k + x))). lia.
  - rewrite !len_app, zeros_len by lia. change (len (lit "0.")) with 2. lia.
  - rewrite !len_app. change (len (lit "e")) with 1. pose proof (Hex (k + x - 1) ltac:(lia)). pose proof (len_nonneg (append_exponent (k + x - 1))). lia.
  - rewrite !len_app. change (len (lit "e")) with 1. change (len (lit ".")) with 1. pose proof (Hex (k + x - 1) ltac:(lia)). pose proof (Htd 1%nat). pose proof (len_nonneg (append_exponent (k + x - 1))). lia.
Qed.
Lemma dump_float_scan T f : correct_strtod T -> is_f64 f -> exists t, dump_float f = Ok t /\ t <> [] /\
  forall r, stop r -> scan T (t ++ r) = (if f32_finite f then TFloat f else TNull, r).
Proof.
  intros [HT0 HT] Hf. unfold dump_float. destruct f as [sg|sg| |sg m e]; cbn [f32_finite].
  - exists ((if sg then [to_char 45] else []) ++ lit "0.0"). split; [destruct sg; reflexivity|]. split; [destruct sg; discriminate|]. intros r Hr.
    replace (lit "0.0") with ([digit_char 0] ++ frac_text [digit_char 0] ++ exp_text None) by reflexivity.
    rewrite float_text_scan; [|constructor; [reflexivity|constructor]|left; reflexivity|constructor; [reflexivity|constructor]|left; discriminate|exact I|exact Hr].
    do 2 f_equal. transitivity (nearest T sg 0%Qc); [|apply HT0]. f_equal. apply Qc_is_canon. vm_compute. reflexivity.
  - eexists. split; [reflexivity|]. split; [discriminate|]. intros r Hr. reflexivity.
  - eexists. split; [reflexivity|]. split; [discriminate|]. intros r Hr. reflexivity.
  - apply f64_double in Hf. destruct (grisu2_spec (Z.pos m) e Hf) as (ds & x & E & Hk & [Hds H0] & Hx & Hn).
    unfold to_chars. cbn [f64_signbit]. rewrite E. cbn [rbind]. pose proof (format_buffer_len ds x Hk Hx) as Hl.
    assert (Hs : len (if sg then [to_char 45] else []) <= 1) by (destruct sg; vm_compute; congruence).
    pose proof (len_nonneg (if sg then [to_char 45] else [])).
    rewrite (proj2 (Z.leb_le _ _)) by (rewrite len_app; lia). eexists. split; [reflexivity|]. split.
    + intros E'. apply app_eq_nil in E'. destruct E' as [_ E']. rewrite E', len_nil in Hl. lia.
    + intros r Hr. rewrite format_buffer_scan by assumption. fold (digits_of ds). rewrite (HT sg m e _ Hf Hn). reflexivity.
Qed.
(** The text of a finite double other than zero, independently of strtod. *)
Lemma dump_float_value sg m e : is_double (Z.pos m) e -> exists t q, dump_float (S754_finite sg m e) = Ok t /\ t <> [] /\ len t <= 24 /\ rounds_to q (Z.pos m) e /\
  forall T r, stop r -> scan T (t ++ r) = (TFloat (nearest T sg q), r).
Proof.
  intros Hf. destruct (grisu2_spec (Z.pos m) e Hf) as (ds & x & E & Hk & [Hds H0] & Hx & Hn).
  unfold dump_float, to_chars. cbn [f32_finite f64_signbit]. rewrite E. cbn [rbind]. pose proof (format_buffer_len ds x Hk Hx) as Hl.
  assert (Hs : len (if sg then [to_char 45] else []) <= 1) by (destruct sg; vm_compute; congruence).
  pose proof (len_nonneg (if sg then [to_char 45] else [])).
  rewrite (proj2 (Z.leb_le _ _)) by (rewrite len_app; lia). eexists _, _. split; [reflexivity|]. split; [|split; [|split; [exact Hn|]]].
  - intros E'. apply app_eq_nil in E'. destruct E' as [_ E']. rewrite E', len_nil in Hl. lia.
  - rewrite len_app. lia.
  - intros T r Hr. rewrite format_buffer_scan by assumption. reflexivity.
Qed.
