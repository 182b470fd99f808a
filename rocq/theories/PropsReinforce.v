(** Property theorems C153: learning reinforces. Vocabulary in SpecReinforce.v. *)
From Verif Require Import Prelude Bytes Utils BinInput Bleaching Ram Disc DataSet Wisard SpecBin SpecDisc SpecBleach SpecWisard SpecReinforce.
From Verif Require Import CtorFacts WisardProofs WisardFacts Reinforce PropsWisard PropsDisc.

(** C153 is false with a confidence of 3: image x is answered l; one more example of l, and the
    answer is a. (Three RAMs of two pixels; the label z that comes after l is what makes the count 2 of
    l ambiguous, although a count of 1 was not.) *)
Definition trio : wisard := Wisard 2 true false ∅ [0; 1; 2; 3; 4; 5] false true 2 false false false false 3 ∅.
Definition la : str := lit "a". Definition ll : str := lit "l". Definition lz : str := lit "z".
Definition trio_calls : list wcall := [CTrain env0 [vec_image [1; 1; 0; 0; 0; 0]; vec_image [1; 1; 0; 0; 0; 0]; vec_image [1; 1; 0; 0; 0; 0]; vec_image [0; 0; 0; 0; 0; 0]] [la; la; ll; lz]].
Definition trio_after : wisard := snd (wrun false trio trio_calls).
Theorem C153_reinforced_refuted : configured trio 6 /\ fst (wrun false trio trio_calls) = Ok tt /\ fst (wrun false trio_after [CTrain env0 [vec_image [0; 0; 1; 1; 0; 0]] [ll]]) = Ok tt /\
  wisard_classify trio_after [vec_image [1; 1; 1; 1; 1; 1]] = Ok [ll] /\
  wisard_classify (snd (wrun false trio_after [CTrain env0 [vec_image [0; 0; 1; 1; 0; 0]] [ll]])) [vec_image [1; 1; 1; 1; 1; 1]] = Ok [la].
Proof. split; [unfold configured; vm_compute; repeat split; discriminate|]. split; [vm_compute; reflexivity|]. split; [vm_compute; reflexivity|]. split; vm_compute; reflexivity. Qed.
Print Assumptions C153_reinforced_refuted.

(** C153: of any model, whatever its state, options and the calls (failing ones included): when all
    further examples are of label l, an image that was answered l is not answered anything else
    afterwards; with bleaching off, with a confidence of at most 2, or when the degree of l was above 1. *)
Theorem C153_reinforced_partial : forall lhs w more x l k,
  is_Some (w_discriminators w !! l) -> Forall (teaches l) more -> firm w x l ->
  wisard_classify w [x] = Ok [l] -> wisard_classify (snd (wrun lhs w more)) [x] = Ok [k] -> k = l.
Proof. intros lhs w more x l k Hl HC Hf H H'. eapply answer_up; [|exact Hf|exact H|exact H']. apply run_up; assumption. Qed.
Print Assumptions C153_reinforced_partial.

(** The other way round: leaving out examples of l never turns another answer into l. *)
Theorem C153_forgotten_partial : forall lhs w more x l k,
  is_Some (w_discriminators w !! l) -> Forall (forgets l) more -> firm (snd (wrun lhs w more)) x l ->
  wisard_classify w [x] = Ok [k] -> wisard_classify (snd (wrun lhs w more)) [x] = Ok [l] -> k = l.
Proof. intros lhs w more x l k Hl HC Hf H H'. eapply answer_up; [|exact Hf|exact H'|exact H]. apply run_down; assumption. Qed.
Print Assumptions C153_forgotten_partial.

(** Not vacuous: bleaching on and confidence 1; the answer hot survives another example of hot, and an
    image answered cold stays so when an example of hot is left out. *)
Definition warm : wisard := Wisard 2 true false ∅ [] false true 2 false false false false 1 ∅.
Definition warm_after : wisard := snd (wrun false warm calls).
Example C153_witness : is_Some (w_discriminators warm_after !! hot) /\ w_confidence warm_after = 1 /\ fst (wrun false warm_after [CTrain env0 [w2] [hot]]) = Ok tt /\
  wisard_classify warm_after [w1; w2] = Ok [hot; cold] /\ wisard_classify (snd (wrun false warm_after [CTrain env0 [w2] [hot]])) [w1] = Ok [hot] /\
  fst (wrun false warm_after [CLeaveOne w1 hot]) = Ok tt /\ wisard_classify (snd (wrun false warm_after [CLeaveOne w1 hot])) [w1; w2] = Ok [hot; cold].
Proof. split; [vm_compute; eauto|]. split; [vm_compute; reflexivity|]. split; [vm_compute; reflexivity|]. split; [vm_compute; reflexivity|]. split; [vm_compute; reflexivity|]. split; vm_compute; reflexivity. Qed.
