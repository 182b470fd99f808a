(** What a Wisard should do, in terms of labelled images and histories only. *)
From Verif Require Import Prelude Bytes BinInput Ram Disc Wisard SpecDisc SpecBleach CtorFacts.

(** The calls that change a Wisard. [env] gives the random choices available to the call. *)
Inductive wcall :=
| CTrain (env : str -> draw) (images : list image) (labels : list str)
| CLeaveOne (im : image) (label : str)
| CLeaveMore (images : list image) (labels : list str).
Definition wcall_run (lhs_first : bool) (w : wisard) (c : wcall) : eff wisard unit :=
  match c with
  | CTrain env images labels => wisard_train lhs_first env w images labels
  | CLeaveOne im label => leaveOneOut w im label
  | CLeaveMore images labels => leaveMoreOut w images labels
  end.
Definition wrun (lhs_first : bool) (w : wisard) (cs : list wcall) : eff wisard unit :=
  efor (wcall_run lhs_first) cs w.

(** The labelled examples of a sequence of calls, in order. *)
Definition examples (c : wcall) : list (str * dop) :=
  match c with
  | CTrain _ images labels => zip labels (Train <$> images)
  | CLeaveOne im label => [(label, Untrain im)]
  | CLeaveMore images labels => zip labels (Untrain <$> images)
  end.
Definition all_examples (cs : list wcall) : list (str * dop) := List.concat (examples <$> cs).
(** The examples of one label. *)
Definition of_label (l : str) (es : list (str * dop)) : list dop := (filter (fun e => e.1 = l) es).*2.
(** A label exists from its first training on: leaving out before that does nothing. *)
Fixpoint since_first_training (h : list dop) : list dop :=
  match h with
  | [] => []
  | Untrain _ :: h' => since_first_training h'
  | Train _ :: _ => h
  end.
(** The history of one label. *)
Definition history (l : str) (es : list (str * dop)) : list dop := since_first_training (of_label l es).
Definition trained (l : str) (es : list (str * dop)) : Prop := exists x, (l, Train x) ∈ es.

(** An image of n pixels with values in 0..base-1. *)
Definition plain_image (base n : Z) (x : image) : Prop :=
  im_size x = n /\ forall p, 0 <= p < n -> exists v, im_get x p = Ok v /\ 0 <= v < base.

(** Number of RAMs of the default wiring of n pixels. *)
Definition ram_count (n a : Z) (complete : bool) : Z :=
  n / a + (if complete && negb (n mod a =? 0) then 1 else 0).

(** Configurations that can learn images of n pixels under label l: the parameters C18-C20
    ask for, and wiring inside the image. *)
Definition can_learn (w : wisard) (n : Z) (l : str) : Prop :=
  match w_mapping w !! l with
  | Some m => Forall (fun addrs => len addrs <= INT_MAX /\ fits (w_base w) (len addrs) /\
                                   Forall (fun p => 0 <= p < n) addrs) m
  | None => 2 <= w_addressSize w <= n /\ n + w_addressSize w <= INT_MAX /\ fits (w_base w) (w_addressSize w) /\
            (w_indexes w = [] \/ w_indexes w ≡ₚ (Z.of_nat <$> seq 0 (Z.to_nat n)))
  end.
Definition configured (w : wisard) (n : Z) : Prop :=
  0 <= n <= INT_MAX /\ 2 <= w_base w /\ 1 <= w_addressSize w /\
  w_confidence w <= ram_count n (w_addressSize w) (w_completeAddressing w).

(** Well-formed calls: matching non-empty lists, plain images, learnable labels. *)
Definition proper_call (w : wisard) (n : Z) (c : wcall) : Prop :=
  Forall (fun e => plain_image (w_base w) n (op_image e.2)) (examples c) /\
  match c with
  | CTrain env images labels =>
      images <> [] /\ len images = len labels /\ Forall (can_learn w n) labels /\ forall l, valid_draw (env l)
  | CLeaveOne _ _ => True
  | CLeaveMore images labels => len images = len labels
  end.

(** d is what the constructor gives for label l with some random choices. *)
Definition built (w : wisard) (n : Z) (l : str) (d : disc) : Prop :=
  exists dr, valid_draw dr /\ construct_discriminator dr w l n = Ok d.

(** The votes owed to image x, given the initial discriminator of each trained label. *)
Definition votes_owed (d0 : gmap str disc) (es : list (str * dop)) (x : image) : gmap str (list Z) :=
  map_imap (fun l d => Some ((fun r => vote_due r (history l es) x) <$> d_rams d)) d0.

(** The counts per label and the class the bleaching rule gives to votes. *)
Definition degrees_owed (w : wisard) (votes : gmap str (list Z)) (cand : gmap str Z) : Prop :=
  if w_bleachingActivated w then bleached (w_confidence w) votes cand else cand = tallies 1 votes.
Definition class_owed (w : wisard) (votes : gmap str (list Z)) (k : str) : Prop :=
  exists cand, degrees_owed w votes cand /\ ((votes = ∅ /\ k = []) \/ winner cand k).

(** Two Wisards with the same options. *)
Definition same_options (w w' : wisard) : Prop := with_discriminators w ∅ = with_discriminators w' ∅.
