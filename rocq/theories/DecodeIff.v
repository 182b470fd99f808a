(** Which texts Base64::decode reads without leaving the string (C04). *)
From Verif Require Import Prelude Bytes Base64 SpecDecode Base64Proofs.

Lemma loop_iff : forall (fuel : nat) (rest : str) (room : Z) (out : str), (length rest <= fuel)%nat -> len rest mod 4 <> 0 -> room <= 3 * (len rest / 4) ->
  ((exists s, decode_loop fuel rest room out = Ok s) /\ early_stop rest room) \/ (decode_loop fuel rest room out = UB UBIndex /\ ~ early_stop rest room).
Proof.
  induction fuel as [|fuel IH]; intros rest room out Hf Hm Hr.
  { destruct rest; [exfalso; apply Hm; reflexivity|cbn in Hf; lia]. }
  destruct rest as [|a [|b [|c [|d rest]]]]; [exfalso; apply Hm; reflexivity| | | |].
  1-3: right; change (room <= 0) in Hr; split; [|intros (g & Hg & _); change (0 <= g < 0) in Hg; lia].
  1-3: cbn [decode_loop]; unfold peek; cbn [lookup list_lookup rbind length Nat.eqb]; unfold put; destruct (Z.ltb_spec 0 room); [lia|]; reflexivity.
  cbn [decode_loop]. unfold peek. cbn [lookup list_lookup rbind].
  assert (E : len (a :: b :: c :: d :: rest) = 4 + len rest) by (unfold len; cbn [length]; lia).
  assert (Hl : 0 <= len rest) by (unfold len; lia). unfold early_stop in *.
  rewrite E in *. replace (4 + len rest) with (len rest + 1 * 4) in * by lia. rewrite Z_mod_plus_full in Hm. rewrite Z.div_add in * by lia.
  assert (H0 : 0 <= len rest / 4) by (apply Z.div_pos; lia). set (q := len rest / 4) in *.
  unfold put. destruct (Z.ltb_spec 0 room) as [R1|R1]; cbn [rbind].
  2:{ right. split; [reflexivity|]. intros (g & Hg & [[_ H]|[_ H]]); lia. }
  destruct (decide (c = pad)) as [->|Hc].
  { left. split; [eauto|]. exists 0. split; [lia|]. left. split; [reflexivity|lia]. }
  destruct (Z.ltb_spec 0 (room - 1)) as [R2|R2]; cbn [rbind].
  2:{ right. split; [reflexivity|]. intros (g & Hg & [[Hp H]|[Hp H]]); [|lia]. assert (g = 0) as -> by lia. cbn in Hp. injection Hp as ->. apply Hc. reflexivity. }
  destruct (decide (d = pad)) as [->|Hd].
  { left. split; [eauto|]. exists 0. split; [lia|]. right. split; [reflexivity|lia]. }
  assert (Hshift : forall (g k : Z), 1 <= g -> 0 <= k -> (a :: b :: c :: d :: rest) !! Z.to_nat (4 * g + k) = rest !! Z.to_nat (4 * (g - 1) + k)).
  { intros g k Hg Hk. replace (Z.to_nat (4 * g + k)) with (S (S (S (S (Z.to_nat (4 * (g - 1) + k)))))) by lia. reflexivity. }
  assert (Hz : forall g, 0 <= g -> g <> 0 \/ g = 0) by lia.
  destruct (Z.ltb_spec 0 (room - 1 - 1)) as [R3|R3]; cbn [rbind].
  2:{ right. split; [reflexivity|]. intros (g & Hg & [[Hp H]|[Hp H]]); (assert (g = 0) as -> by lia); cbn in Hp; injection Hp as ->; [apply Hc|apply Hd]; reflexivity. }
  cbn [drop]. rewrite drop_0. cbn [length] in Hf.
  edestruct (IH rest (room - 1 - 1 - 1)) as [[H1 (g & Hg & H2)]|[H1 H2]]; [lia|exact Hm|unfold q in *; lia| |].
  - left. split; [exact H1|]. exists (g + 1). fold q in Hg. split; [lia|]. rewrite !Hshift by lia. replace (g + 1 - 1) with g by lia.
    destruct H2 as [[Hp H]|[Hp H]]; [left|right]; (split; [exact Hp|lia]).
  - right. split; [exact H1|]. intros (g & Hg & H). apply H2. destruct (Z.eq_dec g 0) as [->|Hg0].
    + exfalso. destruct H as [[Hp _]|[Hp _]]; cbn in Hp; injection Hp as ->; [apply Hc|apply Hd]; reflexivity.
    + exists (g - 1). fold q. split; [lia|]. rewrite !Hshift in H by lia. destruct H as [[Hp H]|[Hp H]]; [left|right]; (split; [exact Hp|lia]).
Qed.

Lemma decode_iff (d : str) :
  (framed d -> exists s, Base64.decode d = Ok s) /\
  (~ framed d -> 2 <= len d -> padding d > 3 * (len d / 4) -> Base64.decode d = Throw ELengthError) /\
  (~ framed d -> 2 <= len d -> padding d <= 3 * (len d / 4) -> early_stop d (3 * (len d / 4) - padding d) -> exists s, Base64.decode d = Ok s) /\
  (~ framed d -> (len d < 2 \/ (padding d <= 3 * (len d / 4) /\ ~ early_stop d (3 * (len d / 4) - padding d))) -> Base64.decode d = UB UBIndex).
Proof.
  split; [intros [H1 H2]; exact (decode_safe d H1 H2)|].
  assert (Hmod : ~ framed d -> 2 <= len d -> len d mod 4 <> 0).
  { intros Hn Hl E. apply Hn. split; [|exact E]. intros ->. change (len (@nil ascii)) with 0 in Hl. lia. }
  assert (Hdec : 2 <= len d -> Base64.decode d = if 3 * (len d / 4) - padding d <? 0 then Throw ELengthError else decode_loop (length d) d (3 * (len d / 4) - padding d) []).
  { intros Hl. unfold Base64.decode, padding. unfold vget.
    destruct (lookup_lt_is_Some_2 d (Z.to_nat (len d - 2))) as [c2 E2]; [unfold len in *; lia|].
    destruct (lookup_lt_is_Some_2 d (Z.to_nat (len d - 1))) as [c1 E1]; [unfold len in *; lia|].
    rewrite E1, E2. rewrite (proj2 (Z.leb_le 0 (len d - 2))) by lia. rewrite (proj2 (Z.leb_le 0 (len d - 1))) by lia. cbn [rbind].
    change pad with "="%char. destruct (decide (c2 = "="%char)) as [->|N2].
    - rewrite decide_True by reflexivity. reflexivity.
    - rewrite (decide_False (P := Some c2 = _)) by congruence. cbn [rbind]. destruct (decide (c1 = "="%char)) as [->|N1].
      + rewrite decide_True by reflexivity. reflexivity.
      + rewrite decide_False by congruence. reflexivity. }
  split; [|split].
  - intros Hn Hl Hp. rewrite Hdec by exact Hl. destruct (Z.ltb_spec (3 * (len d / 4) - padding d) 0); [reflexivity|lia].
  - intros Hn Hl Hp He. rewrite Hdec by exact Hl. destruct (Z.ltb_spec (3 * (len d / 4) - padding d) 0); [lia|].
    assert (0 <= padding d) by (unfold padding; repeat destruct decide; lia).
    destruct (loop_iff (length d) d (3 * (len d / 4) - padding d) []) as [[H1 _]|[_ H2]]; [lia|apply Hmod; assumption|lia|exact H1|contradiction].
  - intros Hn [Hl|[Hp He]].
    + destruct d as [|a [|b d]]; [reflexivity|reflexivity|unfold len in Hl; cbn [length] in Hl; lia].
    + destruct (Z.le_gt_cases 2 (len d)) as [Hl|Hl]; [|destruct d as [|a [|b d]]; [reflexivity|reflexivity|unfold len in Hl; cbn [length] in Hl; lia]].
      rewrite Hdec by exact Hl. destruct (Z.ltb_spec (3 * (len d / 4) - padding d) 0); [lia|].
      assert (0 <= padding d) by (unfold padding; repeat destruct decide; lia).
      destruct (loop_iff (length d) d (3 * (len d / 4) - padding d) []) as [[_ H2]|[H1 _]]; [lia|apply Hmod; assumption|lia|contradiction|exact H1].
Qed.
