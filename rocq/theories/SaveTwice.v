(** Lemmas for C12: a data set saved to a path that already holds one. *)
From Verif Require Import Prelude Bytes Base64 Utils BinInput Fs DataSet SpecBin SpecDecode.
From Verif Require Import BytesProofs UtilsProofs TextProofs Base64Proofs BinProofs RamDataProofs DataSetProofs DecodeIff.

(** Decoding a text that starts with an encoding. *)
Lemma loop_padded s : forall fuel rest room out, (length (encode s ++ rest) <= fuel)%nat -> len s mod 3 <> 0 -> len s <= room ->
  decode_loop fuel (encode s ++ rest) room out = Ok (out ++ s ++ replicate (Z.to_nat (room - len s)) "000"%char).
Proof.
  induction s as [|a|a b|a b c s IH] using list_ind3; intros fuel rest room out Hf Hm Hr.
  - exfalso. apply Hm. reflexivity.
  - rewrite encode1 in *. change (len [a]) with 1 in *. destruct fuel as [|fuel]; [cbn in Hf; lia|]. cbn [app decode_loop]. unfold peek. cbn [lookup list_lookup rbind].
    rewrite put_ok by lia. cbn [rbind]. rewrite decide_True by reflexivity. rewrite !index_char by (apply i0_range || apply i1'_range). rewrite dec_a', <- app_assoc. reflexivity.
  - rewrite encode2 in *. change (len [a; b]) with 2 in *. destruct fuel as [|fuel]; [cbn in Hf; lia|]. cbn [app decode_loop]. unfold peek. cbn [lookup list_lookup rbind].
    rewrite put_ok by lia. cbn [rbind]. rewrite decide_False by (apply char_not_pad, i2'_range). rewrite put_ok by lia. cbn [rbind]. rewrite decide_True by reflexivity.
    rewrite !index_char by (apply i0_range || apply i1_range || apply i2'_range). rewrite dec_a, dec_b', <- !app_assoc. replace (room - 1 - 1) with (room - 2) by lia. reflexivity.
  - rewrite encode3 in *. assert (El : len (a :: b :: c :: s) = len s + 1 * 3) by (unfold len; cbn [length]; lia). rewrite El in Hm, Hr. rewrite Z_mod_plus_full in Hm.
    pose proof (len_nonneg s). destruct fuel as [|fuel]; [cbn in Hf; lia|]. cbn [app decode_loop]. unfold peek. cbn [lookup list_lookup rbind].
    rewrite put_ok by lia. cbn [rbind]. rewrite decide_False by (apply char_not_pad, i2_range). rewrite put_ok by lia. cbn [rbind]. rewrite decide_False by (apply char_not_pad, i3_range). rewrite put_ok by lia. cbn [rbind].
    rewrite !index_char by (apply i0_range || apply i1_range || apply i2_range || apply i3_range). rewrite dec_a, dec_b, dec_c. cbn [drop]. rewrite drop_0.
    rewrite IH; [|cbn [app length] in Hf; lia|exact Hm|lia]. rewrite <- !app_assoc. cbn [app]. rewrite El. replace (room - 1 - 1 - 1 - len s) with (room - (len s + 1 * 3)) by lia. reflexivity.
Qed.
Lemma loop_unpadded s : forall fuel rest room out, (length (encode s ++ rest) <= fuel)%nat -> len s mod 3 = 0 -> len s <= room ->
  exists fuel', (length rest <= fuel')%nat /\ decode_loop fuel (encode s ++ rest) room out = decode_loop fuel' rest (room - len s) (out ++ s).
Proof.
  induction s as [|a|a b|a b c s IH] using list_ind3; intros fuel rest room out Hf Hm Hr.
  - exists fuel. cbn [encode app] in *. rewrite app_nil_r. change (len []) with 0. rewrite Z.sub_0_r. auto.
  - discriminate.
  - discriminate.
  - rewrite encode3 in *. assert (El : len (a :: b :: c :: s) = len s + 1 * 3) by (unfold len; cbn [length]; lia). rewrite El in Hm, Hr. rewrite Z_mod_plus_full in Hm.
    pose proof (len_nonneg s). destruct fuel as [|fuel]; [cbn in Hf; lia|]. cbn [app decode_loop]. unfold peek. cbn [lookup list_lookup rbind].
    rewrite put_ok by lia. cbn [rbind]. rewrite decide_False by (apply char_not_pad, i2_range). rewrite put_ok by lia. cbn [rbind]. rewrite decide_False by (apply char_not_pad, i3_range). rewrite put_ok by lia. cbn [rbind].
    rewrite !index_char by (apply i0_range || apply i1_range || apply i2_range || apply i3_range). rewrite dec_a, dec_b, dec_c. cbn [drop]. rewrite drop_0.
    destruct (IH fuel rest (room - 1 - 1 - 1) (((out ++ [a]) ++ [b]) ++ [c])) as (fuel' & Hf' & E); [cbn [app length] in Hf; lia|exact Hm|lia|].
    exists fuel'. split; [exact Hf'|]. rewrite E, El, <- !app_assoc. cbn [app]. replace (room - 1 - 1 - 1 - len s) with (room - (len s + 1 * 3)) by lia. reflexivity.
Qed.
(** Where the padding of an encoding is. *)
Lemma pad_place s : forall i, encode s !! i = Some pad -> len (encode s) - 2 <= Z.of_nat i /\ (Z.of_nat i = len (encode s) - 2 -> len s = 3 * ((len s + 2) / 3) - 2).
Proof.
  induction s as [|a|a b|a b c s IH] using list_ind3; intros i Hi.
  - discriminate.
  - rewrite encode1 in *. destruct i as [|[|[|[|i]]]]; cbn in Hi; try discriminate; try (injection Hi as Hi; exfalso; revert Hi; apply char_not_pad; (apply i0_range || apply i1'_range)); unfold len; cbn [length]; (split; [lia|intros _; reflexivity]).
  - rewrite encode2 in *. destruct i as [|[|[|[|i]]]]; cbn in Hi; try discriminate; try (injection Hi as Hi; exfalso; revert Hi; apply char_not_pad; (apply i0_range || apply i1_range || apply i2'_range)). unfold len; cbn [length]. split; [lia|]. intros H; lia.
  - rewrite encode3 in *. assert (El : len (a :: b :: c :: s) = len s + 1 * 3) by (unfold len; cbn [length]; lia). rewrite !El.
    replace (len s + 1 * 3 + 2) with (len s + 2 + 1 * 3) by lia. rewrite Z.div_add by lia.
    destruct i as [|[|[|[|i]]]]; cbn [lookup list_lookup] in Hi; try (injection Hi as Hi; exfalso; revert Hi; apply char_not_pad; (apply i0_range || apply i1_range || apply i2_range || apply i3_range)).
    destruct (IH i Hi) as (H1 & H2). unfold len in *. cbn [length] in *. split; [lia|]. intros H. specialize (H2 ltac:(lia)). lia.
Qed.
Lemma shifted_unsafe t fuel out : t <> [] -> (length ("#"%char :: encode t) <= fuel)%nat -> decode_loop fuel ("#"%char :: encode t) (len t) out = UB UBIndex.
Proof.
  intros Hne Hf. pose proof (encode_length4 t) as El. set (C := (len t + 2) / 3) in *.
  assert (HC : len t <= 3 * C <= len t + 2).
  { unfold C. pose proof (Z.div_mod (len t + 2) 3 ltac:(lia)). pose proof (Z.mod_pos_bound (len t + 2) 3 ltac:(lia)). lia. }
  assert (Hlt : 0 < len t) by (unfold len; destruct t; [congruence|cbn [length]; lia]).
  assert (Hl : len ("#"%char :: encode t) = 1 + 4 * C) by (rewrite len_cons, El; lia).
  assert (Hq : len ("#"%char :: encode t) / 4 = C).
  { rewrite Hl. replace (1 + 4 * C) with (1 + C * 4) by lia. rewrite Z.div_add by lia. reflexivity. }
  destruct (loop_iff fuel ("#"%char :: encode t) (len t) out) as [[_ He]|[E _]]; [exact Hf| |rewrite Hq; lia| |exact E].
  - rewrite Hl. replace (1 + 4 * C) with (1 + C * 4) by lia. rewrite Z_mod_plus_full. discriminate.
  - exfalso. destruct He as (g & Hg & He). rewrite Hq in Hg. change ("="%char) with pad in He.
    assert (Hs : forall k, 0 <= k -> ("#"%char :: encode t) !! Z.to_nat (4 * g + 1 + k) = encode t !! Z.to_nat (4 * g + k)).
    { intros k Hk. replace (Z.to_nat (4 * g + 1 + k)) with (S (Z.to_nat (4 * g + k))) by lia. reflexivity. }
    destruct He as [[Hp _]|[Hp Hroom]].
    + replace (4 * g + 2) with (4 * g + 1 + 1) in Hp by lia. rewrite Hs in Hp by lia. apply pad_place in Hp as (Hp & _). rewrite El in Hp. lia.
    + replace (4 * g + 3) with (4 * g + 1 + 2) in Hp by lia. rewrite Hs in Hp by lia. apply pad_place in Hp as (Hp & Hp2). rewrite El in Hp, Hp2. fold C in Hp2. specialize (Hp2 ltac:(lia)). lia.
Qed.

(** The text between the two '#'s and after: pixels of the first, label and pixels of the second record. *)
Lemma border_decode t1 s2 t2 : t1 <> [] -> t2 <> [] ->
  let T := encode t1 ++ encode s2 ++ "#"%char :: encode t2 in
  (len t1 mod 3 <> 0 -> exists k, (0 < k)%nat /\ Z.of_nat k <= len t1 + len s2 + len t2 + 4 /\ Base64.decode T = Ok (t1 ++ replicate k "000"%char)) /\
  (len t1 mod 3 = 0 -> len s2 mod 3 <> 0 -> exists k, Z.of_nat k <= len t1 + len s2 + len t2 + 4 /\ Base64.decode T = Ok (t1 ++ s2 ++ replicate k "000"%char)) /\
  (len t1 mod 3 = 0 -> len s2 mod 3 = 0 -> Base64.decode T = UB UBIndex).
Proof.
  intros H1 H2. cbv zeta. set (T := encode t1 ++ encode s2 ++ "#"%char :: encode t2).
  assert (HA : forall t : str, len t <= 3 * ((len t + 2) / 3) <= len t + 2).
  { intros t. pose proof (Z.div_mod (len t + 2) 3 ltac:(lia)). pose proof (Z.mod_pos_bound (len t + 2) 3 ltac:(lia)). lia. }
  set (A := (len t1 + 2) / 3). set (B := (len s2 + 2) / 3). set (C := (len t2 + 2) / 3).
  pose proof (HA t1) as HA1. pose proof (HA s2) as HA2. pose proof (HA t2) as HA3. fold A in HA1. fold B in HA2. fold C in HA3.
  assert (P1 : 0 < len t1) by (unfold len; destruct t1; [congruence|cbn [length]; lia]).
  assert (P2 : 0 < len t2) by (unfold len; destruct t2; [congruence|cbn [length]; lia]). pose proof (len_nonneg s2) as P3.
  assert (HL : len T = 4 * A + 4 * B + 1 + 4 * C).
  { unfold T. rewrite !len_app, len_cons, !encode_length4. fold A B C. lia. }
  assert (E : Base64.decode T = decode_loop (length T) T (3 * A + 3 * B + len t2) []).
  { unfold Base64.decode. destruct (encode_tail t2 H2) as (x & y & Hx & Hy & Hm).
    assert (Hv : forall j, 0 < j <= 2 -> vget T (len T - j) = vget (encode t2) (len (encode t2) - j)).
    { intros j Hj. rewrite encode_length4. fold C. rewrite HL. unfold vget. destruct (Z.leb_spec 0 (4 * A + 4 * B + 1 + 4 * C - j)); [|lia]. destruct (Z.leb_spec 0 (4 * C - j)); [|lia].
      unfold T. rewrite app_assoc, lookup_app_r; [|rewrite app_length; pose proof (encode_length4 t1); pose proof (encode_length4 s2); unfold len in *; lia].
      assert (Hn : length (encode t1 ++ encode s2) = Z.to_nat (4 * A + 4 * B)).
      { rewrite app_length. pose proof (encode_length4 t1) as X1. pose proof (encode_length4 s2) as X2. fold A in X1. fold B in X2. unfold len in X1, X2. lia. }
      rewrite Hn. replace (Z.to_nat (4 * A + 4 * B + 1 + 4 * C - j) - Z.to_nat (4 * A + 4 * B))%nat with (S (Z.to_nat (4 * C - j))) by lia. reflexivity. }
    rewrite !Hv by lia. rewrite Hx. cbn [rbind].
    assert ((if decide (x = pad) then Ok 2 else let* c1 := vget (encode t2) (len (encode t2) - 1) in Ok (if decide (c1 = pad) then 1 else 0)) = Ok (3 * C - len t2)) as ->.
    { fold C in Hm. rewrite <- Hm. destruct (decide (x = pad)); [reflexivity|]. rewrite Hy. reflexivity. }
    cbn [rbind]. assert (len T / 4 = A + B + C) as ->.
    { rewrite HL. replace (4 * A + 4 * B + 1 + 4 * C) with (1 + (A + B + C) * 4) by lia. rewrite Z.div_add by lia. reflexivity. }
    replace (3 * (A + B + C) - (3 * C - len t2)) with (3 * A + 3 * B + len t2) by lia. destruct (Z.ltb_spec (3 * A + 3 * B + len t2) 0); [lia|reflexivity]. }
  rewrite E. clear E. unfold T. split; [|split].
  - intros Hm. rewrite loop_padded; [|reflexivity|exact Hm|lia]. cbn [app]. eexists. split; [|split; [|reflexivity]]; lia.
  - intros Hm Hm2. assert (3 * A = len t1).
    { apply Z.mod_divide in Hm as (q & Hq); [|lia]. lia. }
    destruct (loop_unpadded t1 (length (encode t1 ++ encode s2 ++ "#"%char :: encode t2)) (encode s2 ++ "#"%char :: encode t2) (3 * A + 3 * B + len t2) []) as (fuel' & Hf & ->); [reflexivity|exact Hm|lia|].
    rewrite loop_padded; [|exact Hf|exact Hm2|lia]. cbn [app]. eexists. split; [|reflexivity]. lia.
  - intros Hm Hm2. assert (3 * A = len t1).
    { apply Z.mod_divide in Hm as (q & Hq); [|lia]. lia. }
    assert (3 * B = len s2).
    { apply Z.mod_divide in Hm2 as (q & Hq); [|lia]. lia. }
    destruct (loop_unpadded t1 (length (encode t1 ++ encode s2 ++ "#"%char :: encode t2)) (encode s2 ++ "#"%char :: encode t2) (3 * A + 3 * B + len t2) []) as (fuel' & Hf & ->); [reflexivity|exact Hm|lia|].
    destruct (loop_unpadded s2 fuel' ("#"%char :: encode t2) (3 * A + 3 * B + len t2 - len t1) ([] ++ t1)) as (fuel2 & Hf2 & ->); [exact Hf|exact Hm2|lia|].
    replace (3 * A + 3 * B + len t2 - len t1 - len s2) with (len t2) by lia. apply shifted_unsafe; [exact H2|exact Hf2].
Qed.
