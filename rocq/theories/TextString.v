(** Strings survive dump_escaped and scan_string. *)
From Verif Require Import Prelude Bytes Float32 Json JsonText BytesProofs TextProofs.
Local Open Scope Z_scope.

(** ** Finite checks over the 256 bytes *)
Definition all_bytes : list ascii := ascii_of_nat <$> seq 0 256.
Lemma ascii_all (P : ascii -> bool) : forallb P all_bytes = true -> forall c, P c = true.
Proof.
  intros H c. rewrite forallb_forall in H. apply H. unfold all_bytes. apply elem_of_list_In, elem_of_list_fmap.
  exists (nat_of_ascii c). split; [symmetry; apply ascii_nat_embedding|]. apply elem_of_seq. pose proof (nat_ascii_bounded c). lia.
Qed.

(** ** The decoder's states *)
Definition cp_min (st : Z) : Z := nth (Z.to_nat st) [0; 0; 2; 1; 0; 1; 0; 1; 1] 0.
Definition cp_max (st : Z) : Z := nth (Z.to_nat st) [0; 0; 32768; 512; 512; 512; 8; 8; 8] 0.
Definition pending (st : Z) : Z := nth (Z.to_nat st) [0; 0; 3; 2; 1; 1; 1; 1; 1] 0.
Definition live (st : Z) : Prop := 2 <= st <= 8.
Lemma live_cases st : live st -> st = 2 \/ st = 3 \/ st = 4 \/ st = 5 \/ st = 6 \/ st = 7 \/ st = 8.
Proof. unfold live. lia. Qed.

(** From the accepting state. *)
Lemma first_byte c : let st := utf8_step 0 c in let cp := Z.land (Z.shiftr 255 (utf8_type (byte c))) (byte c) in
  (st = 0 /\ cp = byte c /\ byte c < 128) \/ (st = 1) \/
  (live st /\ cp_min st <= cp < cp_max st /\ 128 <= byte c).
Proof.
  cbv zeta.
  pose proof (ascii_all (fun c => let st := utf8_step 0 c in let cp := Z.land (Z.shiftr 255 (utf8_type (byte c))) (byte c) in
    ((st =? 0) && (cp =? byte c) && (byte c <? 128)) || (st =? 1) ||
    ((2 <=? st) && (st <=? 8) && (cp_min st <=? cp) && (cp <? cp_max st) && (128 <=? byte c))) ltac:(vm_compute; reflexivity) c) as H.
  cbv beta zeta in H. unfold live. lia.
Qed.
(** From a state inside a code point. *)
Definition step_ok (st : Z) (c : ascii) : bool :=
  let st' := utf8_step st c in
  let lo := Z.land (byte c) 63 in
  (st' =? 1) ||
  ((128 <=? byte c) && (byte c <=? 191) &&
   (if st =? 2 then st' =? 0
    else (2 <=? st') && (st' <=? 3) && (cp_min st' <=? cp_min st * 64 + lo) && ((cp_max st - 1) * 64 + lo <? cp_max st') && (pending st + 1 <=? pending st'))).
Lemma next_byte st c : live st -> step_ok st c = true.
Proof.
  intros H. destruct (live_cases st H) as [->|[->|[->|[->|[->|[->| ->]]]]]].
  1: refine (ascii_all (step_ok 2) _ c). 2: refine (ascii_all (step_ok 3) _ c). 3: refine (ascii_all (step_ok 4) _ c).
  4: refine (ascii_all (step_ok 5) _ c). 5: refine (ascii_all (step_ok 6) _ c). 6: refine (ascii_all (step_ok 7) _ c). 7: refine (ascii_all (step_ok 8) _ c).
  all: vm_compute; reflexivity.
Qed.
Lemma land63 z : 0 <= Z.land z 63 < 64.
Proof. change 63 with (Z.ones 6). rewrite Z.land_ones by lia. apply Z.mod_pos_bound. lia. Qed.
Lemma next_cp cp b : 0 <= cp < 32768 -> Z.lor (Z.land b 63) (u32 (Z.shiftl cp 6)) = cp * 64 + Z.land b 63.
Proof.
  intros H. rewrite Z.shiftl_mul_pow2 by lia. change (2 ^ 6) with 64. unfold u32, W32. rewrite Z.mod_small by lia.
  rewrite Z.lor_comm. pose proof (land63 b) as Hb.
  replace (cp * 64) with (Z.shiftl cp 6) by (rewrite Z.shiftl_mul_pow2 by lia; reflexivity).
  symmetry.
  rewrite <- Z.lxor_lor; [apply Z.add_nocarry_lxor|].
  all: apply Z.bits_inj'; intros n Hn; rewrite Z.land_spec, Z.bits_0.
  all: destruct (Z.lt_ge_cases n 6); [rewrite Z.shiftl_spec_low by lia; reflexivity|].
  all: change 63 with (Z.ones 6); rewrite Z.land_spec, Z.ones_spec_high by lia; rewrite andb_false_r; apply andb_false_r.
Qed.
Lemma utf8_dead s : foldl utf8_step 1 s = 1.
Proof.
  induction s as [|c s IH]; [reflexivity|]. cbn [foldl].
  assert (E : utf8_step 1 c = 1).
  { pose proof (ascii_all (fun c => utf8_step 1 c =? 1) ltac:(vm_compute; reflexivity) c). cbv beta in *. lia. }
  rewrite E. exact IH.
Qed.

(** ** What dump_escaped writes, without its buffer *)
Fixpoint escaped (state codep : Z) (s : str) : str :=
  match s with
  | [] => []
  | c :: s' => let '(state', codep') := decode state codep c in
               (if state' =? 0 then escape codep' c else [c]) ++ escaped state' codep' s'
  end.
Lemma pushes_ok cap cs : forall buf, len buf + len cs <= cap -> pushes cap buf cs = Ok (buf ++ cs).
Proof.
  induction cs as [|c cs IH]; intros buf H; cbn [pushes]; [rewrite app_nil_r; reflexivity|].
  rewrite len_cons in H. pose proof (len_nonneg cs). unfold push. rewrite (proj2 (Z.ltb_lt _ _)) by lia. cbn [rbind].
  rewrite IH; [rewrite <- app_assoc; reflexivity|]. unfold len in *. rewrite app_length. cbn [length]. lia.
Qed.
Lemma escape_len cp c : len (escape cp c) <= 6.
Proof. unfold escape. repeat (destruct (_ =? _); [vm_compute; congruence|]). destruct (_ <=? _); vm_compute; congruence. Qed.
Lemma escape_big cp c : 128 <= cp -> escape cp c = [c].
Proof. intros H. unfold escape. repeat match goal with |- context [cp =? ?k] => rewrite (proj2 (Z.eqb_neq cp k)) by lia end. destruct (Z.leb_spec cp 31); [lia|reflexivity]. Qed.

Definition st_inv (st cp : Z) (buf : str) : Prop :=
  (st = 0 /\ len buf <= 499) \/ (live st /\ cp_min st <= cp < cp_max st /\ len buf <= 499 + pending st).
Lemma cp_small st cp : live st -> cp_min st <= cp < cp_max st -> 0 <= cp < 32768.
Proof. intros H. destruct (live_cases st H) as [->|[->|[->|[->|[->|[->| ->]]]]]]; cbv [cp_min cp_max nth Z.to_nat Pos.to_nat Pos.iter_op Init.Nat.add]; lia. Qed.
Lemma pending_small st : live st -> 1 <= pending st <= 3.
Proof. intros H. destruct (live_cases st H) as [->|[->|[->|[->|[->|[->| ->]]]]]]; vm_compute; split; congruence. Qed.

(** One byte: the new state, and whether a short code point ends. *)
Lemma decode_inv st cp c : (st = 0 \/ live st /\ cp_min st <= cp < cp_max st) ->
  let '(st', cp') := decode st cp c in
  st' = 1 \/ (st' = 0 /\ (st = 0 /\ cp' = byte c /\ byte c < 128 \/ live st /\ 128 <= cp' /\ 128 <= byte c)) \/
  (live st' /\ cp_min st' <= cp' < cp_max st' /\ 128 <= byte c /\ (st = 0 \/ live st /\ pending st + 1 <= pending st')).
Proof.
  intros [->|[Hl Hcp]]; unfold decode.
  - cbn [Z.eqb]. pose proof (first_byte c) as H. cbv zeta in H. destruct H as [(H1 & H2 & H3)|[H|(H1 & H2 & H3)]].
    + right. left. split; [exact H1|]. left. auto.
    + left. exact H.
    + right. right. split; [exact H1|]. split; [exact H2|]. split; [exact H3|]. left. reflexivity.
  - rewrite (proj2 (Z.eqb_neq st 0)) by (unfold live in Hl; lia). rewrite next_cp by (eapply cp_small; eassumption).
    pose proof (next_byte st c Hl) as H. unfold step_ok in H. cbv zeta in H. pose proof (land63 (byte c)) as Hb.
    set (st' := utf8_step st c) in *. clearbody st'. set (lo := Z.land (byte c) 63) in *. clearbody lo.
    destruct (Z.eqb_spec st' 1) as [E1|E1]; [left; exact E1|right]. cbn [orb] in H.
    destruct (Z.eqb_spec st 2) as [E2|E2].
    + left. subst st. split; [lia|]. right. split; [exact Hl|]. change (cp_min 2) with 2 in Hcp. split; lia.
    + right. assert (Hd : 2 <= st' <= 3 /\ cp_min st' <= cp_min st * 64 + lo /\ (cp_max st - 1) * 64 + lo < cp_max st' /\ pending st + 1 <= pending st' /\ 128 <= byte c) by lia.
      destruct Hd as (Hd & H3 & H4 & H5 & H6). split; [unfold live; lia|]. split; [lia|]. split; [exact H6|]. right. auto.
Qed.

Lemma dump_escaped_eq s : forall out buf st cp, st_inv st cp buf ->
  dump_escaped out buf st cp s = if foldl utf8_step st s =? 0 then Ok (out ++ buf ++ escaped st cp s) else Throw EJsonType.
Proof.
  induction s as [|c s IH]; intros out buf st cp Hi; cbn [dump_escaped escaped foldl].
  - rewrite app_nil_r. reflexivity.
  - pose proof (decode_inv st cp c) as H. destruct (decode st cp c) as [st' cp'] eqn:Ed.
    assert (Est : utf8_step st c = st') by (unfold decode in Ed; congruence). rewrite Est.
    assert (Hi' : st = 0 \/ live st /\ cp_min st <= cp < cp_max st) by (destruct Hi as [[? _]|(? & ? & _)]; auto).
    specialize (H Hi'). destruct H as [->|[(-> & H)|(Hl & Hcp & Hb & H)]].
    + rewrite utf8_dead. reflexivity.
    + change (0 =? 0) with true. cbv iota.
      pose proof (escape_len cp' c) as Hel.
      assert (Hlen : len buf + len (escape cp' c) <= 505).
      { destruct H as [(-> & -> & Hc)|(Hl & Hcp & Hc)].
        - destruct Hi as [[_ Hi]|([? _] & _)]; lia.
        - destruct Hi as [[-> Hi]|(_ & _ & Hi)]; [destruct Hl; lia|]. pose proof (pending_small st Hl).
          rewrite escape_big by exact Hcp. rewrite len_cons, len_nil. lia. }
      rewrite pushes_ok by lia. cbn [rbind].
      assert (Hla : len (buf ++ escape cp' c) = len buf + len (escape cp' c)) by (unfold len; rewrite app_length; lia).
      assert (Ep : (if cp' <=? 31 then push 512 (buf ++ escape cp' c) (to_char 0) else Ok (buf ++ escape cp' c)) =
        Ok (if cp' <=? 31 then (buf ++ escape cp' c) ++ [to_char 0] else buf ++ escape cp' c)).
      { destruct (_ <=? 31); [|reflexivity]. unfold push. rewrite (proj2 (Z.ltb_lt _ _)) by lia. reflexivity. }
      rewrite Ep. cbn [rbind]. destruct (Z.ltb_spec (512 - len (buf ++ escape cp' c)) 13) as [L|L].
      * rewrite IH by (left; split; [reflexivity|rewrite len_nil; lia]). rewrite <- !app_assoc. reflexivity.
      * rewrite IH by (left; split; [reflexivity|lia]). rewrite <- !app_assoc. reflexivity.
    + rewrite (proj2 (Z.eqb_neq st' 0)), (proj2 (Z.eqb_neq st' 1)) by (unfold live in Hl; lia).
      pose proof (pending_small st' Hl) as Hp.
      assert (Hlen : len buf + 1 <= 499 + pending st').
      { destruct H as [->|[Hls H]].
        - destruct Hi as [[_ Hi]|([? _] & _)]; lia.
        - destruct Hi as [[-> _]|(_ & _ & Hi)]; [destruct Hls; lia|]. lia. }
      unfold push. rewrite (proj2 (Z.ltb_lt _ _)) by lia. cbn [rbind].
      rewrite IH.
      * rewrite <- !app_assoc. reflexivity.
      * right. split; [exact Hl|]. split; [exact Hcp|]. unfold len in *. rewrite app_length. cbn [length]. lia.
Qed.
Lemma quote_eq s : quote s = if utf8_ok s then Ok ([to_char 34] ++ escaped 0 0 s ++ [to_char 34]) else Throw EJsonType.
Proof.
  unfold quote, utf8_ok. rewrite dump_escaped_eq by (left; split; [reflexivity|vm_compute; congruence]).
  destruct (_ =? 0); reflexivity.
Qed.

(** ** Reading it back *)
Lemma scan_ascii c r : byte c < 128 -> scan_string (escape (byte c) c ++ r) = emit [c] (scan_string r).
Proof. intros H. destruct c as [[] [] [] [] [] [] [] []]; try (exfalso; vm_compute in H; discriminate); reflexivity. Qed.

Definition cp_inv (st cp : Z) : Prop := st = 0 \/ live st /\ cp_min st <= cp < cp_max st.
Lemma escaped_high st cp c s : cp_inv st cp -> utf8_step st c <> 1 -> 128 <= byte c \/ live st ->
  exists cp', cp_inv (utf8_step st c) cp' /\ escaped st cp (c :: s) = c :: escaped (utf8_step st c) cp' s.
Proof.
  intros Hi Hn Hh. pose proof (decode_inv st cp c Hi) as H. cbn [escaped].
  destruct (decode st cp c) as [st' cp'] eqn:Ed. assert (Est : utf8_step st c = st') by (unfold decode in Ed; congruence).
  rewrite Est in *. exists cp'. destruct H as [H|[(-> & H)|(Hl & Hcp & Hb & H)]]; [congruence| |].
  - split; [left; reflexivity|]. cbn [Z.eqb]. destruct H as [(-> & _ & Hc)|(_ & Hc & _)].
    + destruct Hh as [Hh|[Hh _]]; lia.
    + rewrite escape_big by exact Hc. reflexivity.
  - split; [right; auto|]. rewrite (proj2 (Z.eqb_neq st' 0)) by (unfold live in Hl; lia). reflexivity.
Qed.

Definition lead_ok (c : ascii) : bool :=
  let st := utf8_step 0 c in
  if st =? 2 then in_range 194 223 c
  else if st =? 3 then in_range 224 239 c && negb (byte c =? 224) && negb (byte c =? 237)
  else if st =? 4 then byte c =? 224
  else if st =? 5 then byte c =? 237
  else if st =? 6 then byte c =? 240
  else if st =? 7 then in_range 240 244 c && negb (byte c =? 240) && negb (byte c =? 244)
  else if st =? 8 then byte c =? 244
  else true.
Lemma lead_all c : lead_ok c = true. Proof. revert c. apply ascii_all. vm_compute. reflexivity. Qed.
Definition cont_ok (c : ascii) : bool :=
  ((utf8_step 2 c =? 1) || (utf8_step 2 c =? 0) && in_range 128 191 c) &&
  ((utf8_step 3 c =? 1) || (utf8_step 3 c =? 2) && in_range 128 191 c) &&
  ((utf8_step 4 c =? 1) || (utf8_step 4 c =? 2) && in_range 160 191 c) &&
  ((utf8_step 5 c =? 1) || (utf8_step 5 c =? 2) && in_range 128 159 c) &&
  ((utf8_step 6 c =? 1) || (utf8_step 6 c =? 3) && in_range 144 191 c) &&
  ((utf8_step 7 c =? 1) || (utf8_step 7 c =? 3) && in_range 128 191 c) &&
  ((utf8_step 8 c =? 1) || (utf8_step 8 c =? 3) && in_range 128 143 c).
Lemma cont_all c : cont_ok c = true. Proof. revert c. apply ascii_all. vm_compute. reflexivity. Qed.
Lemma cont2 c : utf8_step 2 c <> 1 -> utf8_step 2 c = 0 /\ in_range 128 191 c = true.
Proof. pose proof (cont_all c) as H. unfold cont_ok in H. intros. lia. Qed.
Lemma cont3 c : utf8_step 3 c <> 1 -> utf8_step 3 c = 2 /\ in_range 128 191 c = true.
Proof. pose proof (cont_all c) as H. unfold cont_ok in H. intros. lia. Qed.
Lemma cont_first (st : Z) c : (st = 3 \/ st = 4 \/ st = 5) -> utf8_step st c <> 1 -> utf8_step st c = 2 /\
  (if st =? 4 then in_range 160 191 c else if st =? 5 then in_range 128 159 c else in_range 128 191 c) = true.
Proof. pose proof (cont_all c) as H. unfold cont_ok in H. intros [->|[->| ->]]; cbn [Z.eqb Pos.eqb]; intros; lia. Qed.
Lemma cont_first4 (st : Z) c : (st = 6 \/ st = 7 \/ st = 8) -> utf8_step st c <> 1 -> utf8_step st c = 3 /\
  (if st =? 6 then in_range 144 191 c else if st =? 8 then in_range 128 143 c else in_range 128 191 c) = true.
Proof. pose proof (cont_all c) as H. unfold cont_ok in H. intros [->|[->| ->]]; cbn [Z.eqb Pos.eqb]; intros; lia. Qed.

Lemma scan2 c c1 r : in_range 194 223 c = true -> in_range 128 191 c1 = true ->
  scan_string (c :: c1 :: r) = emit [c; c1] (scan_string r).
Proof.
  intros H H1. cbn [scan_string]. rewrite H, H1. unfold in_range in H.
  rewrite (proj2 (Z.eqb_neq _ 34)), (proj2 (Z.eqb_neq _ 92)), (proj2 (Z.ltb_ge _ 32)), (proj2 (Z.ltb_ge _ 128)) by lia. reflexivity.
Qed.
Lemma scan3 c c1 c2 r : in_range 224 239 c = true ->
  (if byte c =? 224 then in_range 160 191 c1 else if byte c =? 237 then in_range 128 159 c1 else in_range 128 191 c1) = true ->
  in_range 128 191 c2 = true -> scan_string (c :: c1 :: c2 :: r) = emit [c; c1; c2] (scan_string r).
Proof.
  intros H H1 H2. cbn [scan_string]. rewrite H, H1, H2. unfold in_range in *.
  rewrite (proj2 (Z.eqb_neq _ 34)), (proj2 (Z.eqb_neq _ 92)), (proj2 (Z.ltb_ge _ 32)), (proj2 (Z.ltb_ge _ 128)) by lia.
  replace ((194 <=? byte c) && (byte c <=? 223)) with false by lia. reflexivity.
Qed.
Lemma scan4 c c1 c2 c3 r : in_range 240 244 c = true ->
  (if byte c =? 240 then in_range 144 191 c1 else if byte c =? 244 then in_range 128 143 c1 else in_range 128 191 c1) = true ->
  in_range 128 191 c2 = true -> in_range 128 191 c3 = true -> scan_string (c :: c1 :: c2 :: c3 :: r) = emit [c; c1; c2; c3] (scan_string r).
Proof.
  intros H H1 H2 H3. cbn [scan_string]. rewrite H, H1, H2, H3. unfold in_range in *.
  rewrite (proj2 (Z.eqb_neq _ 34)), (proj2 (Z.eqb_neq _ 92)), (proj2 (Z.ltb_ge _ 32)), (proj2 (Z.ltb_ge _ 128)) by lia.
  replace ((194 <=? byte c) && (byte c <=? 223)) with false by lia. replace ((224 <=? byte c) && (byte c <=? 239)) with false by lia. reflexivity.
Qed.

Lemma fold_dead st c s : foldl utf8_step (utf8_step st c) s = 0 -> utf8_step st c <> 1.
Proof. intros H E. rewrite E, utf8_dead in H. discriminate. Qed.
Lemma scan_escaped : forall n s, (length s <= n)%nat -> foldl utf8_step 0 s = 0 -> forall cp rest,
  scan_string (escaped 0 cp s ++ to_char 34 :: rest) = Some (s, rest).
Proof.
  induction n as [|n IH]; intros s Hn Hs cp rest.
  { destruct s; [|cbn in Hn; lia]. reflexivity. }
  destruct s as [|c s1]; [reflexivity|]. cbn [length] in Hn. cbn [foldl] in Hs.
  pose proof (fold_dead _ _ _ Hs) as Hc. pose proof (first_byte c) as Hf. cbv zeta in Hf. destruct Hf as [(H1 & H2 & H3)|[H|(Hl & _ & Hb)]].
  - cbn [escaped]. unfold decode at 1. rewrite H1. cbn [Z.eqb]. rewrite H2, <- app_assoc, scan_ascii by exact H3.
    rewrite H1 in Hs. rewrite (IH s1 ltac:(lia) Hs). reflexivity.
  - destruct (Hc H).
  - destruct (escaped_high 0 cp c s1 (or_introl eq_refl) Hc (or_introl Hb)) as (cp1 & I1 & ->).
    pose proof (lead_all c) as Hlead. unfold lead_ok in Hlead. cbv zeta in Hlead. set (st := utf8_step 0 c) in *.
    destruct s1 as [|c1 s2]; [cbn [foldl] in Hs; unfold live in Hl; lia|]. cbn [foldl] in Hs. cbn [length] in Hn.
    pose proof (fold_dead _ _ _ Hs) as Hc1. destruct (escaped_high st cp1 c1 s2 I1 Hc1 (or_intror Hl)) as (cp2 & I2 & ->).
    assert (Hst : st = 2 \/ (st = 3 \/ st = 4 \/ st = 5) \/ (st = 6 \/ st = 7 \/ st = 8)) by (unfold live in Hl; lia).
    destruct Hst as [E|[E|E]].
    + rewrite E in *. destruct (cont2 c1 Hc1) as [E1 R1]. rewrite E1 in *. cbn [Z.eqb Pos.eqb] in Hlead.
      cbn [app]. rewrite scan2 by assumption. rewrite (IH s2 ltac:(lia) Hs). reflexivity.
    + destruct (cont_first st c1 E Hc1) as [E1 R1]. rewrite E1 in *.
      destruct s2 as [|c2 s3]; [cbn [foldl] in Hs; lia|]. cbn [foldl] in Hs. cbn [length] in Hn.
      pose proof (fold_dead _ _ _ Hs) as Hc2. destruct (escaped_high 2 cp2 c2 s3 I2 Hc2 ltac:(right; unfold live; lia)) as (cp3 & I3 & ->).
      destruct (cont2 c2 Hc2) as [E2 R2]. rewrite E2 in *. cbn [app]. rewrite scan3; [rewrite (IH s3 ltac:(lia) Hs); reflexivity| | |exact R2].
      * destruct E as [E|[E|E]]; rewrite E in Hlead; cbn [Z.eqb Pos.eqb] in Hlead; unfold in_range in *; lia.
      * destruct E as [E|[E|E]]; rewrite E in Hlead, R1; cbn [Z.eqb Pos.eqb] in Hlead, R1.
        -- replace (byte c =? 224) with false by lia. replace (byte c =? 237) with false by lia. exact R1.
        -- rewrite Hlead. exact R1.
        -- replace (byte c =? 224) with false by lia. rewrite Hlead. exact R1.
    + destruct (cont_first4 st c1 E Hc1) as [E1 R1]. rewrite E1 in *.
      destruct s2 as [|c2 s3]; [cbn [foldl] in Hs; lia|]. cbn [foldl] in Hs. cbn [length] in Hn.
      pose proof (fold_dead _ _ _ Hs) as Hc2. destruct (escaped_high 3 cp2 c2 s3 I2 Hc2 ltac:(right; unfold live; lia)) as (cp3 & I3 & ->).
      destruct (cont3 c2 Hc2) as [E2 R2]. rewrite E2 in *.
      destruct s3 as [|c3 s4]; [cbn [foldl] in Hs; lia|]. cbn [foldl] in Hs. cbn [length] in Hn.
      pose proof (fold_dead _ _ _ Hs) as Hc3. destruct (escaped_high 2 cp3 c3 s4 I3 Hc3 ltac:(right; unfold live; lia)) as (cp4 & I4 & ->).
      destruct (cont2 c3 Hc3) as [E3 R3]. rewrite E3 in *.
      cbn [app]. rewrite scan4; [rewrite (IH s4 ltac:(lia) Hs); reflexivity| | |exact R2|exact R3].
      * destruct E as [E|[E|E]]; rewrite E in Hlead; cbn [Z.eqb Pos.eqb] in Hlead; unfold in_range in *; lia.
      * destruct E as [E|[E|E]]; rewrite E in Hlead, R1; cbn [Z.eqb Pos.eqb] in Hlead, R1.
        -- rewrite Hlead. exact R1.
        -- replace (byte c =? 240) with false by lia. replace (byte c =? 244) with false by lia. exact R1.
        -- replace (byte c =? 240) with false by lia. rewrite Hlead. exact R1.
Qed.
Lemma quote_scan T s q rest : quote s = Ok q -> exists r, q = to_char 34 :: r /\ scan T (q ++ rest) = (TString s, rest).
Proof.
  rewrite quote_eq. unfold utf8_ok. destruct (Z.eqb_spec (foldl utf8_step 0 s) 0) as [E|E]; [|discriminate].
  intros [= <-]. eexists. split; [reflexivity|].
  cbn [app]. rewrite <- app_assoc. cbn [app].
  unfold scan. change (skip_space (to_char 34 :: escaped 0 0 s ++ to_char 34 :: rest)) with (to_char 34 :: escaped 0 0 s ++ to_char 34 :: rest).
  cbv iota beta zeta. change (byte (to_char 34)) with 34. cbn [Z.eqb Pos.eqb orb].
  rewrite (scan_escaped (length s) s ltac:(lia) E). reflexivity.
Qed.
