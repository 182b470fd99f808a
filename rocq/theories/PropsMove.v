(** Property theorem C140: pixel positions have no meaning of their own. Vocabulary in SpecMove.v. *)
From Verif Require Import Prelude Bytes Utils BinInput Bleaching Ram Disc DataSet Wisard SpecBin SpecDisc SpecBleach SpecWisard SpecMove.
From Verif Require Import CtorFacts WisardProofs WisardFacts Move PropsWisard PropsDisc.

(** C140: permute the pixels of all training and test images and, likewise, the configured
    wiring: all calls still succeed, and every image gets the same degrees and the same answer. *)
Theorem C140_moved_pixels : forall lhs lhs' pi w0 n cs cs',
  moves pi n -> w_discriminators w0 = ∅ -> configured w0 n -> Forall (proper_call w0 n) cs -> Forall2 (moved_call pi n) cs cs' ->
  (forall l, trained l (all_examples cs) -> wiring_fixed w0 l) -> len (all_examples cs) <= INT_MAX - 2 ->
  exists w w', wrun lhs w0 cs = (Ok tt, w) /\ wrun lhs' (move_wiring pi w0) cs' = (Ok tt, w') /\
    (forall x x', plain_image (w_base w0) n x -> moved pi n x x' ->
       exists cand, wisard_candidates w x = Ok cand /\ wisard_candidates w' x' = Ok cand) /\
    (forall xs xs', Forall (plain_image (w_base w0) n) xs -> Forall2 (moved pi n) xs xs' ->
       wisard_classify w' xs' = wisard_classify w xs).
Proof.
  intros lhs lhs' pi w0 n cs cs' Hpi H0 Hc Hp Hm Hfix Hl. destruct (moved_wisard lhs lhs' pi w0 n cs cs' Hpi H0 Hc Hp Hm Hfix Hl) as (w & w' & E & E' & H).
  exists w, w'. split; [exact E|]. split; [exact E'|]. split; [exact H|]. intros xs xs' Hx Hxx. unfold wisard_classify.
  induction Hxx as [|x x' xs xs' Hm1 _ IH]; [reflexivity|]. apply Forall_cons in Hx as [Hx1 Hx]. cbn [rmapM]. rewrite (IH Hx).
  destruct (H x x' Hx1 Hm1) as (cand & E1 & E2). unfold wisard_classify1. rewrite E1, E2. reflexivity.
Qed.
Print Assumptions C140_moved_pixels.
(** Not vacuous: reading the images backwards. *)
Definition backwards (p : Z) : Z := 3 - p.
Definition back_calls : list wcall := [ CTrain env0 [vec_image [0; 0; 1; 1]; vec_image [1; 1; 0; 0]; vec_image [1; 0; 1; 1]] [hot; cold; hot]; CLeaveOne (vec_image [1; 0; 1; 1]) hot;
  CLeaveMore [vec_image [1; 1; 0; 0]; vec_image [0; 0; 1; 1]] [cold; lit "mild"]; CTrain env0 [vec_image [1; 1; 0; 0]] [cold] ].
Lemma moved4 a b c d : moved backwards 4 (vec_image [a; b; c; d]) (vec_image [d; c; b; a]).
Proof.
  split; [reflexivity|]. split; [reflexivity|]. intros p Hp. assert (p = 0 \/ p = 1 \/ p = 2 \/ p = 3) as [-> |[-> |[-> | ->]]] by lia; reflexivity.
Qed.
Example C140_witness : moves backwards 4 /\ Forall2 (moved_call backwards 4) calls back_calls /\ (forall l, wiring_fixed cfg l) /\
  w_indexes (move_wiring backwards cfg) = [3; 2; 1; 0] /\
  wisard_classify (snd (wrun true cfg calls)) [w1; w3] = Ok [hot; hot] /\
  wisard_classify (snd (wrun true (move_wiring backwards cfg) back_calls)) [vec_image [0; 0; 1; 1]; vec_image [1; 0; 1; 1]] = Ok [hot; hot].
Proof.
  split; [unfold moves; change ([3; 2; 1; 0] ≡ₚ [0; 1; 2; 3]); apply (Permutation_rev [3; 2; 1; 0])|].
  assert (Hv : forall l, valid_draw (env0 l)) by (intros; apply some_draw_valid).
  split; [repeat constructor; try apply Hv; try apply moved4|]. split; [intros l; right; discriminate|]. vm_compute. auto.
Qed.
