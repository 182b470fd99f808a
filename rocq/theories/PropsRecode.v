(** Property theorem C151: pixel values are only names. Vocabulary in SpecRecode.v. *)
From Verif Require Import Prelude Bytes Utils BinInput Bleaching Ram Disc DataSet Wisard SpecBin SpecDisc SpecBleach SpecWisard SpecRecode.
From Verif Require Import CtorFacts WisardProofs WisardFacts Recode PropsWisard PropsDisc.

(** C151: rename the values of each pixel one to one, in all training and test images, and use a
    base that holds the new values: all calls still succeed, and every image gets the same degrees
    and the same answer. With ignoreZero the renaming must leave 0 alone. *)
Theorem C151_renamed_values : forall lhs lhs' f w0 base' n cs cs',
  recodes f (w_base w0) base' n -> (w_ignoreZero w0 = true -> keeps_zero f n) -> 2 <= base' ->
  w_discriminators w0 = ∅ -> configured w0 n -> Forall (proper_call w0 n) cs -> Forall2 (recoded_call f n) cs cs' ->
  (forall l, trained l (all_examples cs) -> can_learn (with_base w0 base') n l) -> len (all_examples cs) <= INT_MAX - 2 ->
  exists w w', wrun lhs w0 cs = (Ok tt, w) /\ wrun lhs' (with_base w0 base') cs' = (Ok tt, w') /\
    (forall x x', plain_image (w_base w0) n x -> recoded f n x x' ->
       exists cand, wisard_candidates w x = Ok cand /\ wisard_candidates w' x' = Ok cand) /\
    (forall xs xs', Forall (plain_image (w_base w0) n) xs -> Forall2 (recoded f n) xs xs' ->
       wisard_classify w' xs' = wisard_classify w xs).
Proof.
  intros lhs lhs' f w0 b' n cs cs' Hf Hz Hb H0 Hc Hp Hm Hlearn Hl. destruct (recoded_wisard lhs lhs' f w0 b' n cs cs' Hf Hz Hb H0 Hc Hp Hm Hlearn Hl) as (w & w' & E & E' & H).
  exists w, w'. split; [exact E|]. split; [exact E'|]. split; [exact H|]. intros xs xs' Hx Hxx. unfold wisard_classify.
  induction Hxx as [|x x' xs xs' Hm1 _ IH]; [reflexivity|]. apply Forall_cons in Hx as [Hx1 Hx]. cbn [rmapM]. rewrite (IH Hx).
  destruct (H x x' Hx1 Hm1) as (cand & E1 & E2). unfold wisard_classify1. rewrite E1, E2. reflexivity.
Qed.
Print Assumptions C151_renamed_values.

(** Not vacuous: the black and white images of [calls], inverted at the even pixels and in base 5
    at the odd ones. *)
Definition paint (p v : Z) : Z := if Z.even p then 1 - v else 4 * v.
Definition painted (l : list Z) : image := vec_image (imap (fun i v => paint (Z.of_nat i) v) l).
Definition paint_calls : list wcall := [ CTrain env0 [painted [1; 1; 0; 0]; painted [0; 0; 1; 1]; painted [1; 1; 0; 1]] [hot; cold; hot]; CLeaveOne (painted [1; 1; 0; 1]) hot;
  CLeaveMore [painted [0; 0; 1; 1]; painted [1; 1; 0; 0]] [cold; lit "mild"]; CTrain env0 [painted [0; 0; 1; 1]] [cold] ].
Lemma paint4 a b c d : recoded paint 4 (vec_image [a; b; c; d]) (painted [a; b; c; d]).
Proof.
  split; [reflexivity|]. split; [reflexivity|]. intros p v Hp. assert (p = 0 \/ p = 1 \/ p = 2 \/ p = 3) as [-> |[-> |[-> | ->]]] by lia; intros [= <-]; reflexivity.
Qed.
Example C151_witness : recodes paint 2 5 4 /\ w_ignoreZero cfg = false /\ Forall2 (recoded_call paint 4) calls paint_calls /\ (forall l, can_learn (with_base cfg 5) 4 l) /\
  wisard_classify (snd (wrun true cfg calls)) [w1; w3] = Ok [hot; hot] /\
  wisard_classify (snd (wrun true (with_base cfg 5) paint_calls)) [painted [1; 1; 0; 0]; painted [1; 1; 0; 1]] = Ok [hot; hot].
Proof.
  split. { intros p Hp. unfold paint. split; [intros v Hv; destruct (Z.even p); lia|]. intros u v Hu Hv. destruct (Z.even p); lia. }
  split; [reflexivity|]. split; [repeat constructor; apply paint4|].
  split. { intros l. pose proof (cfg_learns l) as H. unfold can_learn in *. cbn [with_base w_mapping w_base w_addressSize w_indexes] in *. change (w_mapping cfg) with (∅ : gmap str (list (list Z))) in *. rewrite lookup_empty in *.
    destruct H as (H1 & H2 & H3 & H4). split; [exact H1|]. split; [exact H2|]. split; [|exact H4]. split; [discriminate|]. intros _. vm_compute. discriminate. }
  vm_compute. auto.
Qed.

(** With ignoreZero a renaming that moves 0 does change answers: all black against all white. *)
Example C151_ignore_zero : let iz := Wisard 2 false false ∅ [] true true 2 false false false false 1 ∅ in
  let run xs := snd (wrun true iz [CTrain env0 xs [hot; cold]]) in
  let a := vec_image [0; 0; 0; 0] in let b := vec_image [1; 1; 1; 1] in
  w_discriminators iz = ∅ /\ wisard_classify (run [a; b]) [a; b] = Ok [hot; cold] /\ wisard_classify (run [b; a]) [b; a] <> Ok [hot; cold].
Proof. cbv zeta. split; [reflexivity|]. split; [vm_compute; reflexivity|vm_compute; congruence]. Qed.
