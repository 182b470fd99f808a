(** Proofs for C04: texts without padding. *)
From Verif Require Import Prelude Bytes Base64 Base64Proofs.

Lemma decode_loop_unsafe : forall fuel rest out, pad ∉ rest -> (length rest <= fuel)%nat -> len rest mod 4 <> 0 ->
  decode_loop fuel rest (3 * (len rest / 4)) out = UB UBIndex.
Proof.
  induction fuel as [|fuel IH]; intros rest out Hp Hf Hm.
  - destruct rest; [exfalso; apply Hm; reflexivity|cbn in Hf; lia].
  - destruct rest as [|a [|b [|c [|d rest]]]]; [exfalso; apply Hm; reflexivity|reflexivity|reflexivity|reflexivity|].
    cbn [decode_loop]. unfold peek. cbn [lookup list_lookup rbind].
    assert (E : len (a :: b :: c :: d :: rest) = 4 + len rest) by (unfold len; cbn [length]; lia).
    assert (Hr : 0 <= len rest) by (unfold len; lia).
    rewrite E in *. replace (4 + len rest) with (len rest + 1 * 4) in * by lia. rewrite Z_mod_plus_full in Hm. rewrite Z.div_add by lia.
    assert (H0 : 0 <= len rest / 4) by (apply Z.div_pos; lia).
    set (q := len rest / 4) in *.
    rewrite !not_elem_of_cons in Hp. destruct Hp as (Ha & Hb & Hc & Hd & Hp).
    unfold put. rewrite (proj2 (Z.ltb_lt 0 (3 * (q + 1)))) by lia. cbn [rbind].
    rewrite decide_False by congruence. rewrite (proj2 (Z.ltb_lt 0 (3 * (q + 1) - 1))) by lia. cbn [rbind].
    rewrite decide_False by congruence. rewrite (proj2 (Z.ltb_lt 0 (3 * (q + 1) - 1 - 1))) by lia. cbn [rbind drop].
    replace (3 * (q + 1) - 1 - 1 - 1) with (3 * q) by lia. rewrite drop_0. apply IH; [exact Hp|cbn [length] in Hf; lia|exact Hm].
Qed.

Lemma decode_unsafe d : pad ∉ d -> d = [] \/ len d mod 4 <> 0 -> decode d = UB UBIndex.
Proof.
  intros Hp [->|Hm]; [reflexivity|].
  unfold decode.
  destruct (decide (len d < 2)) as [Hlt|Hge].
  { destruct d as [|a [|b d]]; [reflexivity|reflexivity|unfold len in Hlt; cbn [length] in Hlt; lia]. }
  assert (Hv : forall i, 0 <= i < len d -> exists c, vget d i = Ok c /\ c <> pad).
  { intros i Hi. unfold vget. rewrite (proj2 (Z.leb_le 0 i)) by lia. destruct (lookup_lt_is_Some_2 d (Z.to_nat i)) as [c Hc]; [unfold len in Hi; lia|].
    rewrite Hc. exists c. split; [reflexivity|]. intros ->. apply Hp. eapply elem_of_list_lookup_2. exact Hc. }
  destruct (Hv (len d - 2) ltac:(lia)) as (c2 & -> & H2). destruct (Hv (len d - 1) ltac:(lia)) as (c1 & -> & H1). cbn [rbind].
  rewrite !decide_False by assumption. cbn [rbind].
  assert (0 <= len d / 4) by (apply Z.div_pos; lia). rewrite (proj2 (Z.ltb_ge _ 0)) by lia. rewrite Z.sub_0_r.
  apply decode_loop_unsafe; [exact Hp|lia|exact Hm].
Qed.
