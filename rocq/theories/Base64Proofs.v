From Verif Require Import Prelude Bytes Base64 SpecBase64.

(** ** Sweeps over bytes *)
Definition all_bytes : list ascii := ascii_of_nat <$> seq 0 256.

Lemma all_bytes_spec (c : ascii) : In c all_bytes.
Proof.
  unfold all_bytes. apply elem_of_list_In, elem_of_list_fmap.
  exists (nat_of_ascii c). split; [symmetry; apply ascii_nat_embedding|].
  apply elem_of_seq. pose proof (nat_ascii_bounded c). lia.
Qed.

Lemma sweep1 (P : ascii -> bool) : forallb P all_bytes = true -> forall c, P c = true.
Proof. intros H c. rewrite forallb_forall in H. apply H, all_bytes_spec. Qed.

Lemma sweep2 (P : ascii -> ascii -> bool) :
  forallb (fun a => forallb (P a) all_bytes) all_bytes = true -> forall a b, P a b = true.
Proof.
  intros H a b. rewrite forallb_forall in H.
  specialize (H a (all_bytes_spec a)). rewrite forallb_forall in H. apply H, all_bytes_spec.
Qed.

Definition aeq (a b : ascii) : bool := Ascii.eqb a b.
Lemma aeq_true a b : aeq a b = true -> a = b.
Proof. apply Ascii.eqb_eq. Qed.

(** Indices computed by encode *)
Definition i0 (a : ascii) : Z := Z.land (Z.shiftr (schar a) 2) 63.
Definition i1 (a b : ascii) : Z :=
  Z.lor (Z.land (Z.shiftl (schar a) 4) 48) (Z.land (Z.shiftr (schar b) 4) 15).
Definition i2 (b c : ascii) : Z :=
  Z.lor (Z.land (Z.shiftl (schar b) 2) 60) (Z.land (Z.shiftr (schar c) 6) 3).
Definition i3 (c : ascii) : Z := Z.land (schar c) 63.
Definition i1' (a : ascii) : Z := Z.land (Z.shiftl (schar a) 4) 48.
Definition i2' (b : ascii) : Z := Z.land (Z.shiftl (schar b) 2) 60.

Lemma encode3 a b c d :
  encode (a :: b :: c :: d) =
  b64_char (i0 a) :: b64_char (i1 a b) :: b64_char (i2 b c) :: b64_char (i3 c) :: encode d.
Proof. reflexivity. Qed.
Lemma encode1 a : encode [a] = [b64_char (i0 a); b64_char (i1' a); pad; pad].
Proof. reflexivity. Qed.
Lemma encode2 a b : encode [a; b] = [b64_char (i0 a); b64_char (i1 a b); b64_char (i2' b); pad].
Proof. reflexivity. Qed.

Definition in64 (z : Z) : bool := (0 <=? z) && (z <? 64).
Lemma i0_range a : in64 (i0 a) = true.
Proof. revert a. apply sweep1. vm_compute. reflexivity. Qed.
Lemma i1_range a b : in64 (i1 a b) = true.
Proof. revert a b. apply sweep2. vm_compute. reflexivity. Qed.
Lemma i2_range a b : in64 (i2 a b) = true.
Proof. revert a b. apply sweep2. vm_compute. reflexivity. Qed.
Lemma i3_range a : in64 (i3 a) = true.
Proof. revert a. apply sweep1. vm_compute. reflexivity. Qed.
Lemma i1'_range a : in64 (i1' a) = true.
Proof. revert a. apply sweep1. vm_compute. reflexivity. Qed.
Lemma i2'_range a : in64 (i2' a) = true.
Proof. revert a. apply sweep1. vm_compute. reflexivity. Qed.

Lemma in64_cases (P : Z -> bool) : forallb P (Z.of_nat <$> seq 0 64) = true ->
  forall z, in64 z = true -> P z = true.
Proof.
  intros H z Hz. rewrite forallb_forall in H. apply H.
  apply elem_of_list_In, elem_of_list_fmap. exists (Z.to_nat z).
  unfold in64 in Hz. split; [lia|]. apply elem_of_seq. lia.
Qed.

Lemma index_char z : in64 z = true -> indexMap (b64_char z) = z.
Proof.
  intros H. apply Z.eqb_eq. revert z H. apply in64_cases. vm_compute. reflexivity.
Qed.
Lemma b64_char_rfc z : in64 z = true -> b64_char z = rfc_char z.
Proof.
  intros H. apply aeq_true. revert z H. apply in64_cases. vm_compute. reflexivity.
Qed.
Lemma char_not_pad z : in64 z = true -> b64_char z <> pad.
Proof.
  intros H. assert (negb (aeq (b64_char z) pad) = true) as E.
  { revert z H. apply in64_cases. vm_compute. reflexivity. }
  intros E'. rewrite E' in E. vm_compute in E. discriminate.
Qed.

(** ** Decoding gives the bytes back *)
Lemma dec_a a b : to_char (Z.lor (Z.land (Z.shiftl (i0 a) 2) 252) (Z.land (Z.shiftr (i1 a b) 4) 3)) = a.
Proof. apply aeq_true. revert a b. apply sweep2. vm_compute. reflexivity. Qed.
Lemma dec_a' a : to_char (Z.lor (Z.land (Z.shiftl (i0 a) 2) 252) (Z.land (Z.shiftr (i1' a) 4) 3)) = a.
Proof. apply aeq_true. revert a. apply sweep1. vm_compute. reflexivity. Qed.
Lemma dec_hi a b : Z.land (Z.shiftl (i1 a b) 4) 240 = Z.land (Z.shiftl (i1 "000"%char b) 4) 240.
Proof. apply Z.eqb_eq. revert a b. apply sweep2. vm_compute. reflexivity. Qed.
Lemma dec_lo b c : Z.land (Z.shiftr (i2 b c) 2) 15 = Z.land (Z.shiftr (i2' b) 2) 15.
Proof. apply Z.eqb_eq. revert b c. apply sweep2. vm_compute. reflexivity. Qed.
Lemma dec_b0 b : to_char (Z.lor (Z.land (Z.shiftl (i1 "000"%char b) 4) 240) (Z.land (Z.shiftr (i2' b) 2) 15)) = b.
Proof. apply aeq_true. revert b. apply sweep1. vm_compute. reflexivity. Qed.
Lemma dec_b a b c : to_char (Z.lor (Z.land (Z.shiftl (i1 a b) 4) 240) (Z.land (Z.shiftr (i2 b c) 2) 15)) = b.
Proof. rewrite dec_hi, dec_lo. apply dec_b0. Qed.
Lemma dec_b' a b : to_char (Z.lor (Z.land (Z.shiftl (i1 a b) 4) 240) (Z.land (Z.shiftr (i2' b) 2) 15)) = b.
Proof. rewrite dec_hi. apply dec_b0. Qed.
Lemma dec_c b c : to_char (Z.lor (Z.land (Z.shiftl (i2 b c) 6) 192) (Z.land (i3 c) 63)) = c.
Proof. apply aeq_true. revert b c. apply sweep2. vm_compute. reflexivity. Qed.

Lemma list_ind3 {A} (P : list A -> Prop) :
  P [] -> (forall a, P [a]) -> (forall a b, P [a; b]) ->
  (forall a b c l, P l -> P (a :: b :: c :: l)) -> forall l, P l.
Proof.
  intros H0 H1 H2 H3. fix IH 1. intros [|a [|b [|c l]]];
    [exact H0 | apply H1 | apply H2 | apply H3; apply IH].
Qed.

Lemma put_ok room out z : 0 < room -> put room out z = Ok (room - 1, out ++ [to_char z]).
Proof. intros H. unfold put. destruct (Z.ltb_spec 0 room); [reflexivity|lia]. Qed.

Lemma decode_loop_encode d : forall fuel room out,
  (length (encode d) <= fuel)%nat -> room = len d ->
  decode_loop fuel (encode d) room out = Ok (out ++ d).
Proof.
  induction d as [|a|a b|a b c d IH] using list_ind3; intros fuel room out Hf Hr.
  - subst room. destruct fuel; reflexivity.
  - rewrite encode1 in *. destruct fuel as [|fuel]; [simpl in Hf; lia|].
    cbn [decode_loop]. unfold len in Hr. simpl in Hr. subst room.
    unfold peek. cbn [lookup list_lookup rbind].
    rewrite put_ok by lia. cbn [rbind].
    rewrite decide_True by reflexivity.
    rewrite !index_char by (apply i0_range || apply i1'_range). rewrite dec_a'.
    change (Z.to_nat (1 - 1)) with 0%nat. cbn [replicate]. rewrite app_nil_r. reflexivity.
  - rewrite encode2 in *. destruct fuel as [|fuel]; [simpl in Hf; lia|].
    cbn [decode_loop]. unfold len in Hr. simpl in Hr. subst room.
    unfold peek. cbn [lookup list_lookup rbind].
    rewrite put_ok by lia. cbn [rbind].
    rewrite decide_False by (apply char_not_pad, i2'_range).
    rewrite put_ok by lia. cbn [rbind].
    rewrite decide_True by reflexivity.
    rewrite !index_char by (apply i0_range || apply i1_range || apply i2'_range).
    rewrite dec_a, dec_b'.
    change (Z.to_nat (2 - 1 - 1)) with 0%nat. cbn [replicate].
    rewrite app_nil_r, <- app_assoc. reflexivity.
  - rewrite encode3 in *. destruct fuel as [|fuel]; [simpl in Hf; lia|].
    cbn [decode_loop]. unfold len in Hr. cbn [length] in Hr.
    unfold peek. cbn [lookup list_lookup rbind].
    rewrite put_ok by lia. cbn [rbind].
    rewrite decide_False by (apply char_not_pad, i2_range).
    rewrite put_ok by lia. cbn [rbind].
    rewrite decide_False by (apply char_not_pad, i3_range).
    rewrite put_ok by lia. cbn [rbind].
    rewrite !index_char by (apply i0_range || apply i1_range || apply i2_range || apply i3_range).
    rewrite dec_a, dec_b, dec_c. cbn [drop].
    rewrite IH.
    + rewrite <- !app_assoc. reflexivity.
    + cbn [length] in Hf. lia.
    + unfold len. lia.
Qed.

Lemma encode_length4 d : len (encode d) = 4 * ((len d + 2) / 3).
Proof.
  induction d as [|a|a b|a b c d IH] using list_ind3; try reflexivity.
  rewrite encode3. unfold len in *. cbn [length]. rewrite !Nat2Z.inj_succ.
  replace (Z.succ (Z.succ (Z.succ (Z.of_nat (length d)))) + 2)
    with ((Z.of_nat (length d) + 2) + 1 * 3) by lia.
  rewrite Z.div_add by lia. lia.
Qed.

Lemma vget_cons4 {A} (a b c e : A) l i : 0 <= i -> vget (a :: b :: c :: e :: l) (4 + i) = vget l i.
Proof.
  intros H. unfold vget. destruct (Z.leb_spec 0 i); [|lia]. destruct (Z.leb_spec 0 (4 + i)); [|lia].
  replace (Z.to_nat (4 + i)) with (S (S (S (S (Z.to_nat i))))) by lia. reflexivity.
Qed.

(** The two characters inspected by decode's size computation. *)
Lemma encode_tail d : d <> [] ->
  exists x y, vget (encode d) (len (encode d) - 2) = Ok x /\ vget (encode d) (len (encode d) - 1) = Ok y /\
   (if decide (x = pad) then 2 else if decide (y = pad) then 1 else 0) = 3 * ((len d + 2) / 3) - len d.
Proof.
  induction d as [|a|a b|a b c d IH] using list_ind3; intros Hne.
  - congruence.
  - rewrite encode1. exists pad, pad. repeat split.
  - rewrite encode2. exists (b64_char (i2' b)), pad. repeat split.
    rewrite decide_False by apply char_not_pad, i2'_range. reflexivity.
  - rewrite encode3. destruct d as [|x0 d'].
    + exists (b64_char (i2 b c)), (b64_char (i3 c)). repeat split.
      rewrite !decide_False by (apply char_not_pad, i2_range || apply char_not_pad, i3_range). reflexivity.
    + destruct IH as (x & y & Hx & Hy & Hm); [congruence|].
      exists x, y.
      assert (len (encode (x0 :: d')) >= 2).
      { rewrite encode_length4. unfold len. cbn [length].
        pose proof (Z.div_le_mono 3 (Z.of_nat (S (length d')) + 2) 3). 
        change (3 / 3) with 1 in *. lia. }
      set (e := encode (x0 :: d')) in *.
      replace (len (_ :: _ :: _ :: _ :: e)) with (4 + len e) by (unfold len; cbn [length]; lia).
      rewrite <- !Z.add_sub_assoc, !vget_cons4 by lia.
      repeat split; auto. rewrite Hm.
      replace (len (a :: b :: c :: x0 :: d')) with (len (x0 :: d') + 1 * 3) by (unfold len; cbn [length]; lia).
      rewrite <- Z.add_assoc, (Z.add_comm (1 * 3)), Z.add_assoc, Z.div_add by lia. lia.
Qed.

Theorem decode_encode d : d <> [] -> decode (encode d) = Ok d.
Proof.
  intros Hne. unfold decode.
  destruct (encode_tail d Hne) as (x & y & Hx & Hy & Hm).
  rewrite Hx. cbn [rbind].
  assert ((if decide (x = pad) then Ok 2
           else let* c1 := vget (encode d) (len (encode d) - 1) in
                Ok (if decide (c1 = pad) then 1 else 0)) =
          Ok (3 * ((len d + 2) / 3) - len d)) as ->.
  { rewrite Hy. cbn [rbind]. destruct (decide (x = pad)); congruence. }
  cbn [rbind]. rewrite encode_length4.
  replace (3 * (4 * ((len d + 2) / 3) / 4) - (3 * ((len d + 2) / 3) - len d)) with (len d).
  2:{ rewrite (Z.mul_comm 4), Z.div_mul by lia. lia. }
  destruct (Z.ltb_spec (len d) 0); [unfold len in *; lia|].
  rewrite decode_loop_encode; [reflexivity|lia|reflexivity].
Qed.

(** ** RFC 4648 *)
Lemma bits_of_cons a s : bits_of (a :: s) = byte_bits a ++ bits_of s.
Proof. reflexivity. Qed.

Definition byte_val6 (bs : list bool) : Z := bits_value bs.

Lemma sext_i0 a : bits_value (take 6 (byte_bits a)) = i0 a.
Proof. apply Z.eqb_eq. revert a. apply sweep1. vm_compute. reflexivity. Qed.
Lemma sext_i1 a b : bits_value (drop 6 (byte_bits a) ++ take 4 (byte_bits b)) = i1 a b.
Proof. apply Z.eqb_eq. revert a b. apply sweep2. vm_compute. reflexivity. Qed.
Lemma sext_i2 b c : bits_value (drop 4 (byte_bits b) ++ take 2 (byte_bits c)) = i2 b c.
Proof. apply Z.eqb_eq. revert b c. apply sweep2. vm_compute. reflexivity. Qed.
Lemma sext_i3 c : bits_value (drop 2 (byte_bits c)) = i3 c.
Proof. apply Z.eqb_eq. revert c. apply sweep1. vm_compute. reflexivity. Qed.
Lemma sext_i1' a : bits_value (drop 6 (byte_bits a) ++ replicate 4 false) = i1' a.
Proof. apply Z.eqb_eq. revert a. apply sweep1. vm_compute. reflexivity. Qed.
Lemma sext_i2' b : bits_value (drop 4 (byte_bits b) ++ replicate 2 false) = i2' b.
Proof. apply Z.eqb_eq. revert b. apply sweep1. vm_compute. reflexivity. Qed.

Lemma sextets3 a b c s :
  sextets (bits_of (a :: b :: c :: s)) = i0 a :: i1 a b :: i2 b c :: i3 c :: sextets (bits_of s).
Proof.
  rewrite <- sext_i0, <- sext_i1, <- sext_i2, <- sext_i3.
  rewrite !bits_of_cons. destruct a, b, c. reflexivity.
Qed.
Lemma sextets1 a : sextets (bits_of [a]) = [i0 a; i1' a].
Proof. rewrite <- sext_i0, <- sext_i1'. destruct a. reflexivity. Qed.
Lemma sextets2 a b : sextets (bits_of [a; b]) = [i0 a; i1 a b; i2' b].
Proof. rewrite <- sext_i0, <- sext_i1, <- sext_i2'. destruct a, b. reflexivity. Qed.

Lemma rfc3 a b c s :
  rfc4648 (a :: b :: c :: s) =
  rfc_char (i0 a) :: rfc_char (i1 a b) :: rfc_char (i2 b c) :: rfc_char (i3 c) :: rfc4648 s.
Proof.
  unfold rfc4648. rewrite sextets3. cbn [fmap list_fmap app].
  do 4 f_equal. f_equal. do 2 f_equal. unfold rfc_padding, len. cbn [length].
  rewrite !Nat2Z.inj_succ. set (n := Z.of_nat _).
  replace (Z.succ (Z.succ (Z.succ (Z.succ n)))) with (n + 1 * 4) by lia.
  rewrite Z.mod_add by lia. reflexivity.
Qed.

Theorem encode_rfc d : encode d = rfc4648 d.
Proof.
  induction d as [|a|a b|a b c d IH] using list_ind3.
  - reflexivity.
  - rewrite encode1. unfold rfc4648. rewrite sextets1.
    rewrite !b64_char_rfc by (apply i0_range || apply i1'_range). reflexivity.
  - rewrite encode2. unfold rfc4648. rewrite sextets2.
    rewrite !b64_char_rfc by (apply i0_range || apply i1_range || apply i2'_range). reflexivity.
  - rewrite encode3, rfc3, IH.
    rewrite !b64_char_rfc by (apply i0_range || apply i1_range || apply i2_range || apply i3_range).
    reflexivity.
Qed.

(** ** Character set *)
Lemma char_in_alphabet z : in64 z = true -> in_alphabet (b64_char z).
Proof. intros H. exists z. split; [unfold in64 in H; lia|]. apply b64_char_rfc, H. Qed.

Theorem encode_charset d : Forall (fun c => in_alphabet c \/ c = pad) (encode d).
Proof.
  assert (forall z, in64 z = true -> in_alphabet (b64_char z) \/ b64_char z = pad) as Hc
    by (intros z Hz; left; apply char_in_alphabet, Hz).
  assert (in_alphabet pad \/ pad = pad) as Hp by (right; reflexivity).
  induction d as [|a|a b|a b c d IH] using list_ind3.
  - constructor.
  - rewrite encode1. repeat lazymatch goal with |- Forall _ (_ :: _) => apply List.Forall_cons end; try exact Hp;
      [apply Hc, i0_range | apply Hc, i1'_range | constructor].
  - rewrite encode2. repeat lazymatch goal with |- Forall _ (_ :: _) => apply List.Forall_cons end; try exact Hp;
      [apply Hc, i0_range | apply Hc, i1_range | apply Hc, i2'_range | constructor].
  - rewrite encode3. repeat lazymatch goal with |- Forall _ (_ :: _) => apply List.Forall_cons end; try exact Hp;
      [apply Hc, i0_range | apply Hc, i1_range | apply Hc, i2_range | apply Hc, i3_range | exact IH].
Qed.

Lemma alphabet_no_sep c : in_alphabet c \/ c = pad -> c <> "."%char /\ c <> "#"%char.
Proof.
  intros [[v [Hv ->]]| ->]; [|split; discriminate].
  assert (negb (aeq (rfc_char v) ".") && negb (aeq (rfc_char v) "#") = true) as E.
  { assert (in64 v = true) as Hi by (unfold in64; lia). clear Hv; revert v Hi.
    apply (in64_cases (fun v => negb (aeq (rfc_char v) ".") && negb (aeq (rfc_char v) "#"))).
    vm_compute. reflexivity. }
  split; intros Heq; rewrite Heq in E; vm_compute in E; discriminate.
Qed.

Lemma encode_no_dot d : "."%char ∉ encode d.
Proof.
  intros Hin. pose proof (encode_charset d) as H. rewrite Forall_forall in H.
  apply H, alphabet_no_sep in Hin. destruct Hin; congruence.
Qed.
Lemma encode_no_sharp d : "#"%char ∉ encode d.
Proof.
  intros Hin. pose proof (encode_charset d) as H. rewrite Forall_forall in H.
  apply H, alphabet_no_sep in Hin. destruct Hin; congruence.
Qed.

(** ** Safety of decode on well-framed text *)
Definition tail_minus (x y : ascii) : Z := if decide (x = pad) then 2 else if decide (y = pad) then 1 else 0.

Lemma decode_loop_safe n : forall fuel rest room out,
  length rest = (4 * S n)%nat -> (length rest <= fuel)%nat ->
  (exists x y, rest !! (length rest - 2)%nat = Some x /\ rest !! (length rest - 1)%nat = Some y /\
     room >= 3 * Z.of_nat (S n) - tail_minus x y) ->
  exists s, decode_loop fuel rest room out = Ok s.
Proof.
  induction n as [|n IH]; intros fuel rest room out Hlen Hf (x & y & Hx & Hy & Hroom).
  - destruct rest as [|c0 [|c1 [|c2 [|c3 [|]]]]]; try (simpl in Hlen; lia).
    simpl in Hx, Hy. injection Hx as <-. injection Hy as <-.
    destruct fuel as [|fuel]; [simpl in Hf; lia|]. cbn [decode_loop].
    unfold peek. cbn [lookup list_lookup rbind]. revert Hroom. unfold tail_minus.
    destruct (decide (c2 = pad)); intros Hroom; [rewrite put_ok by lia; cbn [rbind]; eauto|].
    rewrite put_ok by (destruct (decide (c3 = pad)); lia). cbn [rbind].
    rewrite put_ok by (destruct (decide (c3 = pad)); lia). cbn [rbind].
    revert Hroom. destruct (decide (c3 = pad)); intros Hroom; [eauto|].
    rewrite put_ok by lia. cbn [rbind drop]. destruct fuel; cbn; eauto.
  - destruct rest as [|c0 [|c1 [|c2 [|c3 rest]]]]; try (simpl in Hlen; lia).
    destruct fuel as [|fuel]; [simpl in Hf; lia|]. cbn [decode_loop].
    unfold peek. cbn [lookup list_lookup rbind].
    assert (0 <= tail_minus x y <= 2) by (unfold tail_minus; repeat destruct decide; lia).
    rewrite put_ok by lia; cbn [rbind].
    destruct (decide (c2 = pad)); [eauto|]. rewrite put_ok by lia; cbn [rbind].
    destruct (decide (c3 = pad)); [eauto|]. rewrite put_ok by lia; cbn [rbind drop].
    cbn [length] in *. rewrite drop_0. apply IH; [lia|lia|].
    exists x, y. rewrite <- Hx, <- Hy.
    replace (S (S (S (S (length rest)))) - 2)%nat with (S (S (S (S (length rest - 2)))))%nat by lia.
    replace (S (S (S (S (length rest)))) - 1)%nat with (S (S (S (S (length rest - 1)))))%nat by lia.
    repeat split; try reflexivity. lia.
Qed.

Lemma vget_nat {A} (l : list A) (i : nat) : vget l (Z.of_nat i) = match l !! i with Some x => Ok x | None => UB UBIndex end.
Proof. unfold vget. destruct (Z.leb_spec 0 (Z.of_nat i)); [|lia]. rewrite Nat2Z.id. reflexivity. Qed.

Theorem decode_safe d : d <> [] -> len d mod 4 = 0 -> exists s, decode d = Ok s.
Proof.
  intros Hne Hmod.
  assert (exists n, length d = (4 * S n)%nat) as [n Hn].
  { unfold len in Hmod. destruct d as [|a d]; [congruence|].
    pose proof (Z.div_mod (Z.of_nat (length (a :: d))) 4 ltac:(lia)) as E. rewrite Hmod in E.
    exists (Z.to_nat (Z.of_nat (length (a :: d)) / 4 - 1)). cbn [length] in *. lia. }
  destruct (lookup_lt_is_Some_2 d (length d - 2)) as [x Hx]; [lia|].
  destruct (lookup_lt_is_Some_2 d (length d - 1)) as [y Hy]; [lia|].
  unfold decode, len. 
  replace (Z.of_nat (length d) - 2) with (Z.of_nat (length d - 2)) by lia.
  replace (Z.of_nat (length d) - 1) with (Z.of_nat (length d - 1)) by lia.
  rewrite !vget_nat, Hx, Hy. cbn [rbind].
  assert (Z.of_nat (length d) / 4 = Z.of_nat (S n)) as Hq.
  { rewrite Hn. replace (Z.of_nat (4 * S n)) with (Z.of_nat (S n) * 4) by lia. apply Z.div_mul. lia. }
  assert (exists m, (if decide (x = pad) then Ok 2 else Ok (if decide (y = pad) then 1 else 0)) = Ok m /\ m = tail_minus x y) as (m & -> & Hm).
  { unfold tail_minus. destruct (decide (x = pad)); eauto. }
  cbn [rbind]. rewrite Hq.
  assert (0 <= m <= 2) by (subst m; unfold tail_minus; repeat destruct decide; lia).
  destruct (Z.ltb_spec (3 * Z.of_nat (S n) - m) 0); [lia|].
  apply (decode_loop_safe n); [exact Hn|lia|]. exists x, y. repeat split; auto. lia.
Qed.

Lemma index_other c : c ∉ charsMap -> indexMap c = 0.
Proof.
  unfold indexMap. generalize 0 at 1. induction charsMap as [|x l IH]; intros z Hn; [reflexivity|].
  cbn. rewrite decide_False by (intros ->; apply Hn; left). apply IH. intros H; apply Hn; right; exact H.
Qed.
