(** An implementation of std::sort meeting its contract (witness that [sorts] is satisfiable). *)
From Coq Require Import SpecFloat.
From Verif Require Import Prelude Float32 Kernel SpecKernel.

Fixpoint ins (a : Z * f64) (l : list (Z * f64)) : list (Z * f64) :=
  match l with [] => [a] | b :: l' => if kc_less b a then b :: ins a l' else a :: b :: l' end.
Fixpoint isort (l : list (Z * f64)) : list (Z * f64) := match l with [] => [] | a :: l' => ins a (isort l') end.

Lemma ins_perm a l : Permutation (a :: l) (ins a l).
Proof. induction l as [|b l IH]; cbn; [reflexivity|]. destruct (kc_less b a); [|reflexivity]. rewrite <- IH. apply Permutation_swap. Qed.
Lemma isort_perm l : Permutation l (isort l).
Proof. induction l as [|a l IH]; cbn; [reflexivity|]. rewrite <- ins_perm, <- IH. reflexivity. Qed.

Definition ntrans (P : Z * f64 -> Prop) : Prop := forall a b c, P a -> P b -> P c -> kc_less b a = false -> kc_less c b = false -> kc_less c a = false.
Definition asym (P : Z * f64 -> Prop) : Prop := forall a b, P a -> P b -> kc_less a b = true -> kc_less b a = false.
Definition insorted (l : list (Z * f64)) : Prop := StronglySorted (fun a b => kc_less b a = false) l.
Lemma ins_sorted P a l : ntrans P -> asym P -> P a -> Forall P l -> insorted l -> insorted (ins a l).
Proof.
  intros HT HA Ha HF HS. induction HS as [|b l HS IH Hb]; cbn; [constructor; [constructor|constructor]|].
  apply Forall_cons in HF as [Pb HF]. destruct (kc_less b a) eqn:E.
  - constructor; [apply IH, HF|]. rewrite <- (ins_perm a l). constructor; [apply HA; assumption|exact Hb].
  - constructor; [constructor; assumption|]. constructor; [exact E|]. rewrite Forall_forall in *. intros c Hc. apply (HT a b c); auto.
Qed.
Lemma isort_sorted P l : ntrans P -> asym P -> Forall P l -> insorted (isort l).
Proof.
  intros HT HA. induction l as [|a l IH]; intros HF; cbn; [constructor|]. apply Forall_cons in HF as [Ha HF]. apply (ins_sorted P); auto. rewrite <- isort_perm. exact HF.
Qed.
Lemma strict_weak_laws l : strict_weak kc_less l = true -> ntrans (fun a => a ∈ l) /\ asym (fun a => a ∈ l).
Proof.
  intros H. unfold strict_weak in H. apply andb_prop in H as [H1 H2]. rewrite forallb_forall in H1, H2. setoid_rewrite <- elem_of_list_In in H1. setoid_rewrite <- elem_of_list_In in H2.
  assert (HI : forall a, a ∈ l -> kc_less a a = false) by (intros a Ha; specialize (H1 a Ha); destruct (kc_less a a); [discriminate|reflexivity]).
  assert (H3 : forall a b c, a ∈ l -> b ∈ l -> c ∈ l -> implb (kc_less a b && kc_less b c) (kc_less a c) = true /\
     implb (negb (kc_less a b) && negb (kc_less b a) && negb (kc_less b c) && negb (kc_less c b)) (negb (kc_less a c) && negb (kc_less c a)) = true).
  { intros a b c Ha Hb Hc. specialize (H2 a Ha). rewrite forallb_forall in H2. setoid_rewrite <- elem_of_list_In in H2. specialize (H2 b Hb).
    rewrite forallb_forall in H2. setoid_rewrite <- elem_of_list_In in H2. specialize (H2 c Hc). apply andb_prop in H2. exact H2. }
  assert (HT : forall a b c, a ∈ l -> b ∈ l -> c ∈ l -> kc_less a b = true -> kc_less b c = true -> kc_less a c = true).
  { intros a b c Ha Hb Hc E1 E2. destruct (H3 a b c Ha Hb Hc) as [H _]. rewrite E1, E2 in H. exact H. }
  split.
  - intros a b c Ha Hb Hc E1 E2. destruct (kc_less c a) eqn:E3; [|reflexivity]. exfalso. destruct (kc_less a b) eqn:E4.
    + pose proof (HT c a b Hc Ha Hb E3 E4). congruence.
    + destruct (kc_less b c) eqn:E5; [pose proof (HT b c a Hb Hc Ha E5 E3); congruence|]. destruct (H3 a b c Ha Hb Hc) as [_ H]. rewrite E1, E2, E4, E5 in H. cbn in H. rewrite E3 in H. destruct (kc_less a c); discriminate.
  - intros a b Ha Hb E. destruct (kc_less b a) eqn:E2; [|reflexivity]. pose proof (HT a b a Ha Hb Ha E E2). rewrite HI in H by exact Ha. discriminate.
Qed.
Theorem isort_sorts : sorts isort.
Proof.
  intros l H. split; [apply isort_perm|]. destruct (strict_weak_laws l H) as [HT HA].
  pose proof (isort_sorted _ l HT HA ltac:(apply Forall_forall; auto)) as HS. revert HS. generalize (isort l) as m. clear. intros m HS. induction HS as [|x m HS IH HF]; intros i j a b Hij Ea Eb; [discriminate|].
  destruct j as [|j]; [lia|]. cbn in Eb. destruct i as [|i]; [cbn in Ea; injection Ea as ->; apply (Forall_lookup_1 _ _ _ _ HF Eb)|]. apply (IH i j); auto. lia.
Qed.
