(** The decoder table of dump accepts exactly UTF-8, and json::parse only yields UTF-8 strings. *)
From Verif Require Import Prelude Bytes Float32 Json JsonText BytesProofs TextProofs TextString TextTotal SpecUtf8.
Local Open Scope Z_scope.

Definition lead_state (b : Z) : Z :=
  if b <? 128 then 0 else if (194 <=? b) && (b <=? 223) then 2 else if b =? 224 then 4 else if b =? 237 then 5
  else if (225 <=? b) && (b <=? 239) then 3 else if b =? 240 then 6 else if (241 <=? b) && (b <=? 243) then 7 else if b =? 244 then 8 else 1.
Definition next_state (st b : Z) : Z :=
  let ok lo hi st' := if (lo <=? b) && (b <=? hi) then st' else 1 in
  if st =? 2 then ok 128 191 0 else if st =? 3 then ok 128 191 2 else if st =? 4 then ok 160 191 2 else if st =? 5 then ok 128 159 2
  else if st =? 6 then ok 144 191 3 else if st =? 7 then ok 128 191 3 else ok 128 143 3.
Lemma lead_eq c : utf8_step 0 c = lead_state (byte c).
Proof. apply Z.eqb_eq. revert c. apply ascii_all. vm_compute. reflexivity. Qed.
Lemma next_eq st c : live st -> utf8_step st c = next_state st (byte c).
Proof.
  intros H. apply Z.eqb_eq. destruct (live_cases st H) as [->|[->|[->|[->|[->|[->| ->]]]]]]; revert c; apply ascii_all; vm_compute; reflexivity.
Qed.

(** One encoded scalar value. *)
Definition unit_ok (l : list Z) : Prop :=
  match l with
  | [a] => 0 <= a < 128
  | [a; b] => 194 <= a <= 223 /\ 128 <= b <= 191
  | [a; b; c] => 224 <= a <= 239 /\ 128 <= b <= 191 /\ 128 <= c <= 191 /\ (a = 224 -> 160 <= b) /\ (a = 237 -> b <= 159)
  | [a; b; c; d] => 240 <= a <= 244 /\ 128 <= b <= 191 /\ 128 <= c <= 191 /\ 128 <= d <= 191 /\ (a = 240 -> 144 <= b) /\ (a = 244 -> b <= 143)
  | _ => False
  end.
Lemma unit_encode l : unit_ok l <-> exists cp, scalar cp /\ l = encode cp.
Proof.
  split.
  - unfold scalar, encode. destruct l as [|a [|b [|c [|d [|e l]]]]]; cbn [unit_ok]; try (intros []; fail).
    + intros H. exists a. split; [lia|]. rewrite (proj2 (Z.ltb_lt _ _)) by lia. reflexivity.
    + intros H. exists ((a - 192) * 64 + (b - 128)). split; [lia|]. rewrite (proj2 (Z.ltb_ge _ _)), (proj2 (Z.ltb_lt _ _)) by lia.
      repeat f_equal; Z.div_mod_to_equations; lia.
    + intros H. exists ((a - 224) * 4096 + (b - 128) * 64 + (c - 128)). split; [lia|]. rewrite (proj2 (Z.ltb_ge _ 128)), (proj2 (Z.ltb_ge _ 2048)), (proj2 (Z.ltb_lt _ _)) by lia.
      repeat f_equal; Z.div_mod_to_equations; lia.
    + intros H. exists ((a - 240) * 262144 + (b - 128) * 4096 + (c - 128) * 64 + (d - 128)). split; [lia|].
      rewrite (proj2 (Z.ltb_ge _ 128)), (proj2 (Z.ltb_ge _ 2048)), (proj2 (Z.ltb_ge _ 65536)) by lia.
      repeat f_equal; Z.div_mod_to_equations; lia.
  - intros (cp & H & ->). unfold scalar in H. unfold encode.
    destruct (Z.ltb_spec cp 0x80); [cbn [unit_ok]; lia|]. destruct (Z.ltb_spec cp 0x800); [cbn [unit_ok]; Z.div_mod_to_equations; lia|].
    destruct (Z.ltb_spec cp 0x10000); cbn [unit_ok]; Z.div_mod_to_equations; lia.
Qed.
Ltac ifs := repeat match goal with
  | |- context [if ?b then _ else _] => destruct b eqn:?
  | H : context [if ?b then _ else _] |- _ => destruct b eqn:?
  end; lia.
Lemma unit_fold s : unit_ok (byte <$> s) -> foldl utf8_step 0 s = 0.
Proof.
  destruct s as [|a [|b [|c [|d [|e s]]]]]; rewrite ?fmap_cons; rewrite ?fmap_nil; cbn [unit_ok]; try (intros []; fail).
  - intros H. cbn [foldl]. rewrite lead_eq. unfold lead_state. rewrite (proj2 (Z.ltb_lt _ _)) by lia. reflexivity.
  - intros H. cbn [foldl]. rewrite lead_eq. replace (lead_state (byte a)) with 2 by (unfold lead_state; ifs).
    rewrite next_eq by (unfold live; lia). unfold next_state. cbn [Z.eqb Pos.eqb]. ifs.
  - intros H. cbn [foldl]. rewrite lead_eq.
    assert (Hs : lead_state (byte a) = 3 \/ lead_state (byte a) = 4 \/ lead_state (byte a) = 5) by (unfold lead_state; ifs).
    assert (E : next_state (lead_state (byte a)) (byte b) = 2) by (unfold next_state, lead_state; ifs).
    rewrite (next_eq (lead_state (byte a))) by (unfold live; lia). rewrite E, next_eq by (unfold live; lia). unfold next_state. cbn [Z.eqb Pos.eqb]. ifs.
  - intros H. cbn [foldl]. rewrite lead_eq.
    assert (Hs : lead_state (byte a) = 6 \/ lead_state (byte a) = 7 \/ lead_state (byte a) = 8) by (unfold lead_state; ifs).
    assert (E : next_state (lead_state (byte a)) (byte b) = 3) by (unfold next_state, lead_state; ifs).
    rewrite (next_eq (lead_state (byte a))) by (unfold live; lia). rewrite E, (next_eq 3) by (unfold live; lia).
    replace (next_state 3 (byte c)) with 2 by (unfold next_state; cbn [Z.eqb Pos.eqb]; ifs). rewrite next_eq by (unfold live; lia). unfold next_state. cbn [Z.eqb Pos.eqb]. ifs.
Qed.
Lemma fold_unit s : s <> [] -> foldl utf8_step 0 s = 0 -> exists u s', s = u ++ s' /\ u <> [] /\ unit_ok (byte <$> u) /\ foldl utf8_step 0 s' = 0.
Proof.
  intros Hn H. destruct s as [|a s]; [congruence|]. cbn [foldl] in H. pose proof (fold_dead _ _ _ H) as Ha. rewrite lead_eq in H, Ha.
  pose proof (byte_range a) as Ra.
  destruct (Z.eq_dec (lead_state (byte a)) 0) as [E|E0].
  { exists [a], s. split; [reflexivity|]. split; [discriminate|]. rewrite E in H. split; [|exact H]. cbn. revert E. unfold lead_state. ifs. }
  assert (L : live (lead_state (byte a))) by (revert E0 Ha; unfold live, lead_state; ifs).
  destruct s as [|b s]; [cbn [foldl] in H; lia|]. cbn [foldl] in H. pose proof (fold_dead _ _ _ H) as Hb. rewrite next_eq in H, Hb by exact L.
  destruct (Z.eq_dec (lead_state (byte a)) 2) as [E|E2].
  { exists [a; b], s. split; [reflexivity|]. split; [discriminate|]. rewrite E in H, Hb. unfold next_state in H, Hb. cbn [Z.eqb Pos.eqb] in H, Hb.
    destruct ((128 <=? byte b) && (byte b <=? 191)) eqn:Rb; [|congruence]. split; [|exact H]. cbn. revert E. unfold lead_state. ifs. }
  destruct s as [|c s]; [cbn [foldl] in H; revert H Hb E2 E0; unfold next_state, lead_state; ifs|].
  cbn [foldl] in H. pose proof (fold_dead _ _ _ H) as Hc. 
  assert (L2 : next_state (lead_state (byte a)) (byte b) = 2 \/ next_state (lead_state (byte a)) (byte b) = 3).
  { revert Hb E2 E0 L. unfold live. set (st := lead_state (byte a)). unfold next_state. intros. ifs. }
  destruct L2 as [L2|L2]; rewrite L2 in H, Hc; rewrite next_eq in H, Hc by (unfold live; lia); unfold next_state in H, Hc; cbn [Z.eqb Pos.eqb] in H, Hc;
    (destruct ((128 <=? byte c) && (byte c <=? 191)) eqn:Rc; [|congruence]).
  { exists [a; b; c], s. split; [reflexivity|]. split; [discriminate|]. split; [|exact H]. cbn. clear H Hc. revert L2 E2 E0. unfold next_state, lead_state. ifs. }
  destruct s as [|d s]; [cbn [foldl] in H; lia|]. cbn [foldl] in H. pose proof (fold_dead _ _ _ H) as Hd. rewrite next_eq in H, Hd by (unfold live; lia).
  unfold next_state in H, Hd. cbn [Z.eqb Pos.eqb] in H, Hd. destruct ((128 <=? byte d) && (byte d <=? 191)) eqn:Rd; [|congruence].
  exists [a; b; c; d], s. split; [reflexivity|]. split; [discriminate|]. split; [|exact H]. cbn. clear H Hd Hc. clear Hb L. revert L2 E2 E0 Ha. unfold next_state, lead_state. ifs.
Qed.
Theorem utf8_ok_iff s : utf8_ok s = true <-> is_utf8 s.
Proof.
  unfold utf8_ok, is_utf8. rewrite Z.eqb_eq. split.
  - remember (length s) as n eqn:En. revert s En. induction n as [n IH] using (well_founded_induction lt_wf). intros s En H.
    destruct s as [|a s]; [exists []; split; [constructor|reflexivity]|].
    destruct (fold_unit (a :: s) ltac:(discriminate) H) as (u & s' & E & Hu & Hk & H'). apply unit_encode in Hk as (cp & Hcp & Ecp).
    destruct (IH (length s')) with (s := s') as (cps & Hcps & Es); [|reflexivity|exact H'|].
    { rewrite En, E, app_length. destruct u; [congruence|]. cbn [length]. lia. }
    exists (cp :: cps). split; [constructor; assumption|]. rewrite E, fmap_app, Ecp, Es. reflexivity.
  - intros (cps & H & E). revert s E. induction H as [|cp cps Hcp Hcps IH]; intros s E.
    { apply fmap_nil_inv in E. rewrite E. reflexivity. }
    rewrite fmap_cons in E. cbn [List.concat] in E. apply fmap_app_inv in E as (u & s' & Eu & Es & ->). rewrite foldl_app.
    rewrite unit_fold by (apply unit_encode; exists cp; auto). apply IH. congruence.
Qed.

(** What scan_string yields. *)
Lemma utf8_ok_app u s : foldl utf8_step 0 u = 0 -> utf8_ok s = true -> utf8_ok (u ++ s) = true.
Proof. unfold utf8_ok. intros H. rewrite foldl_app, H. auto. Qed.
Lemma lor_add m k x : 0 <= k -> 0 <= x < 2 ^ k -> Z.lor (m * 2 ^ k) x = m * 2 ^ k + x.
Proof.
  intros Hk Hx. rewrite <- Z.shiftl_mul_pow2 by exact Hk. symmetry. rewrite <- Z.lxor_lor; [apply Z.add_nocarry_lxor|].
  all: apply Z.bits_inj'; intros n Hn; rewrite Z.land_spec, Z.bits_0; destruct (Z.lt_ge_cases n k); [rewrite Z.shiftl_spec_low by lia; reflexivity|].
  all: replace x with (x mod 2 ^ k) by (apply Z.mod_small; exact Hx); rewrite Z.mod_pow2_bits_high by lia; apply andb_false_r.
Qed.
Lemma utf8_bytes_encode cp : 0 <= cp < 2 ^ 21 -> byte <$> utf8_bytes cp = encode cp.
Proof.
  intros H. unfold utf8_bytes, encode.
  assert (Hm : forall x, Z.lor 128 (Z.land x 63) = 128 + x mod 64).
  { intros x. change 63 with (Z.ones 6). rewrite Z.land_ones by lia. change 128 with (2 * 2 ^ 6). apply lor_add; [lia|]. apply Z.mod_pos_bound. lia. }
  assert (Hb : forall x, 0 <= x < 256 -> byte (to_char x) = x) by (intros x Hx; rewrite byte_to_char; apply Z.mod_small; exact Hx).
  pose proof (fun x => Z.mod_pos_bound x 64 ltac:(lia)) as Hr.
  destruct (Z.ltb_spec cp 128); [rewrite fmap_cons, Hb by lia; reflexivity|].
  replace (cp <=? 2047) with (cp <? 2048) by lia. replace (cp <=? 65535) with (cp <? 65536) by lia.
  rewrite !Z.shiftr_div_pow2 by lia. change (2 ^ 6) with 64. change (2 ^ 12) with 4096. change (2 ^ 18) with 262144.
  destruct (Z.ltb_spec cp 2048); [|destruct (Z.ltb_spec cp 65536)]; rewrite !fmap_cons, fmap_nil, !Hm.
  - change 192 with (6 * 2 ^ 5). rewrite lor_add by (Z.div_mod_to_equations; lia). rewrite !Hb; [reflexivity|specialize (Hr cp); lia|Z.div_mod_to_equations; lia].
  - change 224 with (14 * 2 ^ 4). rewrite lor_add by (Z.div_mod_to_equations; lia). pose proof (Hr cp). pose proof (Hr (cp / 64)).
    rewrite !Hb; [reflexivity|lia|lia|Z.div_mod_to_equations; lia].
  - change 240 with (30 * 2 ^ 3). rewrite lor_add by (Z.div_mod_to_equations; lia). pose proof (Hr cp). pose proof (Hr (cp / 64)). pose proof (Hr (cp / 4096)).
    rewrite !Hb; [reflexivity|lia|lia|lia|Z.div_mod_to_equations; lia].
Qed.
Lemma utf8_bytes_ok cp : scalar cp -> foldl utf8_step 0 (utf8_bytes cp) = 0.
Proof.
  intros H. apply unit_fold, unit_encode. exists cp. split; [exact H|]. apply utf8_bytes_encode. unfold scalar in H. lia.
Qed.
Lemma hex_bound c v : hex_value c = Some v -> 0 <= v < 16.
Proof. unfold hex_value. cbv zeta. pose proof (byte_range c). repeat match goal with |- context [if ?b then _ else _] => destruct b eqn:? end; intros [= <-]; lia. Qed.
Lemma codepoint_bound a b c d v : codepoint4 a b c d = Some v -> 0 <= v < 65536.
Proof.
  unfold codepoint4. destruct (hex_value a) as [x|] eqn:A; [|discriminate]. destruct (hex_value b) as [y|] eqn:B; [|discriminate].
  destruct (hex_value c) as [z|] eqn:C; [|discriminate]. destruct (hex_value d) as [w|] eqn:D; [|discriminate].
  apply hex_bound in A, B, C, D. intros [= <-]. lia.
Qed.
Ltac destruct_scan_eq H :=
  repeat match type of H with
  | context [match (if ?b then _ else _) with _ => _ end] => destruct b eqn:?
  | (if ?b then _ else _) = _ => destruct b eqn:?
  | match ?x with _ => _ end = _ => destruct x eqn:?
  end; try discriminate.
Lemma scan_string_utf8 : forall n s t r, (length s <= n)%nat -> scan_string s = Some (t, r) -> utf8_ok t = true.
Proof.
  induction n as [|n IH]; intros s t r Hn H; (destruct s as [|c s1]; [discriminate|]); cbn [length] in *; [lia|].
  cbn [scan_string] in H. pose proof (byte_range c) as Rc. destruct_scan_eq H; try (injection H as <- <-; reflexivity); subst; unfold in_range in *.
  all: apply emit_some in H as (t' & H & ->); apply IH in H; [|cbn [length] in *; lia]; apply utf8_ok_app; [|exact H].
  all: try (match goal with H : codepoint4 _ _ _ _ = Some _ |- _ => apply codepoint_bound in H end).
  all: try (match goal with H : codepoint4 _ _ _ _ = Some _ |- _ => apply codepoint_bound in H end).
  all: try (apply utf8_bytes_ok; unfold scalar; lia).
  all: first [vm_compute; reflexivity|apply unit_fold; rewrite ?fmap_cons, ?fmap_nil; cbn [unit_ok]; ifs].
Qed.
Lemma labels_utf8 {A} (m : gmap str A) (P : A -> Prop) :
  (forall l d, m !! l = Some d -> utf8_ok l = true /\ P d) <-> (forall l d, m !! l = Some d -> is_utf8 l /\ P d).
Proof. setoid_rewrite utf8_ok_iff. reflexivity. Qed.
