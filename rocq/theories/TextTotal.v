(** json::parse always ends: a value or a JSON exception. *)
From Coq Require Import SpecFloat QArith Qcanon.
From Verif Require Import Prelude Bytes Float32 Json JsonText BytesProofs TextProofs TextString TextNumber TextParse.
Local Open Scope nat_scope.

Lemma skip_space_len s : length (skip_space s) <= length s.
Proof. induction s as [|c s IH]; [auto|]. cbn [skip_space]. destruct (is_space c); cbn [length] in *; lia. Qed.
Lemma emit_some l o t r : emit l o = Some (t, r) -> exists t', o = Some (t', r) /\ t = l ++ t'.
Proof. destruct o as [[t' r']|]; [|discriminate]. intros [= <- <-]. eauto. Qed.
Ltac destruct_scan H :=
  repeat match type of H with
  | context [match (if ?b then _ else _) with _ => _ end] => destruct b
  | (if ?b then _ else _) = _ => destruct b
  | match ?x with _ => _ end = _ => destruct x
  end; try discriminate.
Lemma scan_string_len : forall n s t r, length s <= n -> scan_string s = Some (t, r) -> length r < length s.
Proof.
  induction n as [|n IH]; intros s t r Hn H; (destruct s as [|c s1]; [discriminate|]); cbn [length] in *; [lia|].
  cbn [scan_string] in H. destruct_scan H; try (injection H as <- <-; lia).
  all: apply emit_some in H as (t' & H & _); apply IH in H; cbn [length] in *; lia.
Qed.
Lemma scan_digits_len s : forall st ty b ty' r, scan_digits st ty s = Some (b, ty', r) -> length r <= length s.
Proof.
  induction s as [|c s IH]; intros st ty b ty' r H; cbn [scan_digits] in H.
  - destruct (number_end st); [|discriminate]. injection H as <- <- <-. auto.
  - destruct (number_step st c) as [st'| |]; [|injection H as <- <- <-; auto|discriminate].
    destruct (scan_digits st' (enter st' ty) s) as [[[b' ty''] r']|] eqn:E; [|discriminate]. injection H as <- <- <-. apply IH in E. cbn [length]. lia.
Qed.
Lemma scan_literal_len w : forall s t t' s', scan_literal w s t = (t', s') -> length s' <= length s.
Proof.
  induction w as [|c w IH]; intros s t t' s' H; cbn [scan_literal] in H; [injection H as <- <-; auto|].
  destruct s as [|c' s]; [injection H as <- <-; auto|]. destruct (decide (c' = c)); [|injection H as <- <-; cbn; lia]. apply IH in H. cbn [length]. lia.
Qed.
Definition good_token (t : token) : Prop := match t with TEnd | TError => False | _ => True end.
Lemma scan_len T s t s' : scan T s = (t, s') -> length s' <= length s /\ (good_token t -> length s' < length s).
Proof.
  intros H. unfold scan in H. pose proof (skip_space_len s) as Hs. destruct (skip_space s) as [|c s1]; [injection H as <- <-; cbn in *; split; [lia|intros []]|].
  cbn [length] in Hs. cbv zeta in H.
  repeat match type of H with (if ?b then _ else _) = _ => destruct b end; try (injection H as <- <-; cbn [length]; split; [lia|intros; lia]); try (injection H as <- <-; cbn [length]; split; [lia|intros []]).
  1-3: apply scan_literal_len in H; split; intros; lia.
  - destruct (scan_string s1) as [[x r]|] eqn:E; injection H as <- <-; [|cbn; split; [lia|intros []]]. apply (scan_string_len (length s1)) in E; [|lia]. split; intros; lia.
  - unfold scan_number in H.
    destruct (scan_digits _ _ s1) as [[[b ty] r]|] eqn:E; [|injection H as <- <-; cbn; split; [lia|intros []]].
    injection H as <- <-. apply scan_digits_len in E. split; intros; lia.
Qed.

Definition fine (s : list ascii) (r : res (json * list ascii)) : Prop :=
  match r with
  | Ok (_, s') => length s' <= length s
  | Throw e => e = EJsonParse \/ e = EJsonRange
  | _ => False
  end.
Lemma fine_mono s1 s r : length s1 <= length s -> fine s1 r -> fine s r.
Proof. intros H. destruct r as [[j s']|e|u|]; cbn; auto. lia. Qed.
Lemma parse_bad T fuel t s : ~ good_token t -> parse_value T (S fuel) t s = Throw EJsonParse.
Proof. destruct t; cbn; intros H; try (exfalso; apply H; exact I); reflexivity. Qed.
Lemma parse_total T : forall fuel,
  (forall t s, 2 * length s + 3 <= fuel -> fine s (parse_value T fuel t s)) /\
  (forall acc t s, 2 * length s + 3 <= fuel -> fine s (parse_members T fuel acc t s)) /\
  (forall acc t s, 2 * length s + 4 <= fuel -> fine s (parse_elements T fuel acc t s)).
Proof.
  induction fuel as [|fuel (IHv & IHm & IHe)]; [repeat split; intros; lia|]. repeat split.
  - intros t s Hf. destruct t; cbn [parse_value]; try (cbn; auto; lia).
    + destruct (scan T s) as [t1 s1] eqn:E. apply scan_len in E as [H1 H2].
      assert (Hg : good_token t1 \/ ~ good_token t1) by (destruct t1; cbn; auto). destruct Hg as [Hg|Hg].
      * specialize (H2 Hg). assert (fine s (parse_elements T fuel [] t1 s1)) by (apply (fine_mono s1); [lia|]; apply IHe; lia).
        destruct t1; assumption.
      * destruct t1; try (exfalso; apply Hg; exact I); (destruct fuel as [|[|fuel]]; [lia|lia|]); cbn; auto.
    + destruct (scan T s) as [t1 s1] eqn:E. apply scan_len in E as [H1 H2].
      assert (Hg : good_token t1 \/ ~ good_token t1) by (destruct t1; cbn; auto). destruct Hg as [Hg|Hg].
      * specialize (H2 Hg). assert (fine s (parse_members T fuel [] t1 s1)) by (apply (fine_mono s1); [lia|]; apply IHm; lia).
        destruct t1; assumption.
      * destruct t1; try (exfalso; apply Hg; exact I); (destruct fuel as [|fuel]; [lia|]); cbn; auto.
    + destruct (f32_finite f); cbn; auto.
  - intros acc t s Hf. cbn [parse_members]. destruct t as [| | | | | | | | |k| | | |]; try (cbn; auto; fail).
    destruct (scan T s) as [t1 s1] eqn:E1. apply scan_len in E1 as [L1 G1]. destruct t1; try (cbn; auto; fail). specialize (G1 I).
    destruct (scan T s1) as [t2 s2] eqn:E2. apply scan_len in E2 as [L2 _].
    pose proof (IHv t2 s2 ltac:(lia)) as H. destruct (parse_value T fuel t2 s2) as [[v s3]|e|u|]; cbn [rbind]; try exact H. cbn [fine] in H.
    destruct (scan T s3) as [t3 s4] eqn:E3. apply scan_len in E3 as [L3 _]. destruct t3; try (cbn; auto; fail); [cbn; lia|].
    destruct (scan T s4) as [t4 s5] eqn:E4. apply scan_len in E4 as [L4 _]. apply (fine_mono s5); [lia|]. apply IHm. lia.
  - intros acc t s Hf. cbn [parse_elements]. pose proof (IHv t s ltac:(lia)) as H. destruct (parse_value T fuel t s) as [[v s3]|e|u|]; cbn [rbind]; try exact H. cbn [fine] in H.
    destruct (scan T s3) as [t3 s4] eqn:E3. apply scan_len in E3 as [L3 G3]. destruct t3; try (cbn; auto; fail); [cbn; lia|]. specialize (G3 I).
    destruct (scan T s4) as [t4 s5] eqn:E4. apply scan_len in E4 as [L4 _]. apply (fine_mono s5); [lia|]. apply IHe. lia.
Qed.
Lemma skip_bom_len s : length (skip_bom s) <= length s.
Proof. destruct s as [|a [|b [|c s]]]; cbn [skip_bom]; auto. destruct (_ && _ && _)%bool; cbn; lia. Qed.
Lemma parse_ends T text : (exists j, json_parse T text = Ok j) \/ json_parse T text = Throw EJsonParse \/ json_parse T text = Throw EJsonRange.
Proof.
  unfold json_parse. pose proof (skip_bom_len text) as Hb. destruct (scan T (skip_bom text)) as [t s] eqn:E. apply scan_len in E as [L G].
  assert (Hg : good_token t \/ ~ good_token t) by (destruct t; cbn; auto). destruct Hg as [Hg|Hg].
  - specialize (G Hg). pose proof (proj1 (parse_total T (2 * length text + 2)) t s ltac:(lia)) as H.
    destruct (parse_value T (2 * length text + 2) t s) as [[j s']|e|u|]; cbn [rbind]; [|destruct H as [-> | ->]; auto|destruct H|destruct H].
    destruct (scan T s') as [t' s'']. destruct t'; eauto.
  - rewrite Nat.add_comm. cbn [Nat.add]. rewrite parse_bad by exact Hg. cbn [rbind]. auto.
Qed.
