(** What a discriminator should do, in terms of images and histories only. *)
From Verif Require Import Prelude Bytes BinInput Ram Disc.

Global Instance exn_eq_dec : EqDecision exn. Proof. solve_decision. Defined.
Global Instance ub_eq_dec : EqDecision ub. Proof. solve_decision. Defined.
Global Instance res_eq_dec {A} `{EqDecision A} : EqDecision (res A). Proof. solve_decision. Defined.

(** Two images agree on the positions in [addrs]. *)
Definition agree (addrs : list Z) (x y : image) : Prop := Forall (fun a => im_get x a = im_get y a) addrs.
Global Instance agree_dec addrs x y : Decision (agree addrs x y).
Proof. unfold agree. apply _. Defined.
(** An image is zero on all the positions in [addrs]. *)
Definition all_zero (addrs : list Z) (x : image) : Prop := Forall (fun a => im_get x a = Ok 0) addrs.
Global Instance all_zero_dec addrs x : Decision (all_zero addrs x).
Proof. unfold all_zero. apply _. Defined.

(** Number of images of a list satisfying [P]. *)
Definition count_if {A} (P : A -> bool) (l : list A) : Z := len (filter (fun x => P x = true) l).

(** A history of calls on one discriminator. *)
Inductive dop := Train (x : image) | Untrain (x : image).
Definition op_image (o : dop) : image := match o with Train x => x | Untrain x => x end.

(** Executing a history, stopping at the first failing call. *)
Definition dstep (d : disc) (o : dop) : eff disc unit :=
  match o with Train x => disc_train d x | Untrain x => disc_untrain d x end.
Definition run (d : disc) (h : list dop) : eff disc unit := efor dstep h d.

(** Trainings of images agreeing with x on [addrs]. *)
Definition trainings (addrs : list Z) (x : image) (h : list dop) : Z :=
  count_if (fun o => match o with Train y => bool_decide (agree addrs x y) | _ => false end) h.
(** Untrainings of images agreeing with x on [addrs], counted only from the first training
    of an agreeing image on. *)
Fixpoint effective_untrainings (addrs : list Z) (x : image) (h : list dop) : Z :=
  match h with
  | [] => 0
  | Untrain _ :: h' => effective_untrainings addrs x h'
  | Train y :: h' =>
      if decide (agree addrs x y)
      then count_if (fun o => match o with Untrain z => bool_decide (agree addrs x z) | _ => false end) h'
      else effective_untrainings addrs x h'
  end.

(** The vote a RAM reading [addrs] owes to image x. *)
Definition vote_due (r : ram) (h : list dop) (x : image) : Z :=
  if r_ignoreZero r && bool_decide (all_zero (r_addresses r) x) then 0
  else trainings (r_addresses r) x h - effective_untrainings (r_addresses r) x h.

(** An image a discriminator accepts: right length, and at every position read by a RAM a
    value in 0..base-1. *)
Definition valid_image (d : disc) (x : image) : Prop :=
  s32 (im_size x) = d_entrySize d /\
  Forall (fun r => Forall (fun a => exists v, im_get x a = Ok v /\ 0 <= v < r_base r) (r_addresses r)) (d_rams d).

(** A discriminator returned by one of the constructors, whatever the random choices. All the
    parameters are ints (and vectors hold at most INT_MAX ints). *)
Definition is_int (z : Z) : Prop := INT_MIN <= z <= INT_MAX.
Definition constructed (d : disc) : Prop :=
  exists dr addressSize entrySize ignoreZero completeAddressing indexes mapping base,
    valid_draw dr /\ is_int addressSize /\ is_int entrySize /\ is_int base /\
    len indexes <= INT_MAX /\ Forall (fun m => len m <= INT_MAX) mapping /\
    disc_new dr addressSize entrySize ignoreZero completeAddressing indexes mapping base = Ok d.

(** Number of RAM inputs wired to position p, over the whole discriminator. *)
Definition wires (d : disc) (p : Z) : Z := count_if (fun a => a =? p) (List.concat (disc_mapping d)).
(** Number of images whose pixel p is on. *)
Definition active (p : Z) (xs : list image) : Z :=
  count_if (fun x => negb (bool_decide (im_get x p = Ok 0))) xs.

(** Whether pixel p of x is on. *)
Definition on (p : Z) (x : image) : bool := negb (bool_decide (im_get x p = Ok 0)).
(** Activity of pixel p in a history, as seen by a RAM reading [addrs]: trained images with
    the pixel on, minus untrained ones, where an untraining only counts if an image agreeing
    with it on [addrs] was trained before ([seen]: images trained so far). *)
Fixpoint net_active (addrs : list Z) (p : Z) (seen : list image) (h : list dop) : Z :=
  match h with
  | [] => 0
  | Train y :: h' => (if on p y then 1 else 0) + net_active addrs p (y :: seen) h'
  | Untrain y :: h' =>
      (if on p y && bool_decide (Exists (agree addrs y) seen) then -1 else 0) + net_active addrs p seen h'
  end.

Definition zsum (l : list Z) : Z := foldr Z.add 0 l.
(** What the mental image owes to pixel p after a history: each RAM contributes its net
    activity once per input wired to p. *)
Definition mental_law (d : disc) (h : list dop) (p : Z) : Z :=
  zsum ((fun r => count_if (fun a => a =? p) (r_addresses r) * net_active (r_addresses r) p [] h) <$> d_rams d).

(** Every input of every RAM is wired inside the entry. *)
Definition wired_inside (d : disc) : Prop :=
  Forall (fun r => Forall (fun p => 0 <= p < d_entrySize d) (r_addresses r)) (d_rams d).
(** Number of RAM inputs of the discriminator. *)
Definition total_inputs (d : disc) : Z := len (List.concat (disc_mapping d)).
(** A RAM with at most 2^31 addresses. *)
Definition small (r : ram) : Prop := r_base r ^ len (r_addresses r) <= 2147483648.
(** The enumeration order of a hash map: any order of its entries. *)
Definition good_iter (iter : iteration) : Prop := forall m, iter m ≡ₚ map_to_list m.
