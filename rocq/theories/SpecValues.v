(** Renaming pixel values inside one base, for histories with any outcome (for C151, C152). *)
From Verif Require Import Prelude Bytes BinInput Disc Wisard Cluster ClusWisard SpecDisc SpecWisard SpecClus.

(** [f p] sends the values 0..base-1 of pixel p to different values 0..base-1; with ignoreZero it
    must leave 0 alone. *)
Definition renaming (f : Z -> Z -> Z) (base : Z) (ignoreZero : bool) : Prop := forall p,
  (forall v, 0 <= v < base -> 0 <= f p v < base) /\
  (forall u v, 0 <= u < base -> 0 <= v < base -> f p u = f p v -> u = v) /\
  (ignoreZero = true -> f p 0 = 0).
(** x' is x, of values 0..base-1, with the values renamed: reading it anywhere gives the renamed value,
    or the same failure (outside the image). *)
Definition renamed_image (f : Z -> Z -> Z) (base : Z) (x x' : image) : Prop :=
  im_size x' = im_size x /\ forall p,
    match im_get x p with Ok v => 0 <= v < base /\ im_get x' p = Ok (f p v) | Throw e => im_get x' p = Throw e | UB u => im_get x' p = UB u | Hang => im_get x' p = Hang end.

(** The same call on renamed images. trainUnsupervised builds its cluster with base 2 whatever the
    model's base is (C74): it is only considered when that is 2. *)
Inductive renamed_kcall (f : Z -> Z -> Z) (base : Z) : kcall -> kcall -> Prop :=
| renamed_ktrain env xs xs' ls : (forall i, valid_draw (env i)) -> Forall2 (renamed_image f base) xs xs' -> renamed_kcall f base (KTrain env xs ls) (KTrain env xs' ls)
| renamed_ksemi env env2 xs xs' ls : (forall i, valid_draw (env i)) -> (forall i, valid_draw (env2 i)) -> Forall2 (renamed_image f base) xs xs' ->
    renamed_kcall f base (KSemi env env2 xs ls) (KSemi env env2 xs' ls)
| renamed_kunsup env xs xs' : base = 2 -> (forall i, valid_draw (env i)) -> Forall2 (renamed_image f base) xs xs' -> renamed_kcall f base (KUnsupervised env xs) (KUnsupervised env xs').

(** The same for the calls of a Wisard. *)
Inductive renamed_wcall (f : Z -> Z -> Z) (base : Z) : wcall -> wcall -> Prop :=
| renamed_wtrain env xs xs' ls : (forall l, valid_draw (env l)) -> Forall2 (renamed_image f base) xs xs' -> renamed_wcall f base (CTrain env xs ls) (CTrain env xs' ls)
| renamed_wone x x' l : renamed_image f base x x' -> renamed_wcall f base (CLeaveOne x l) (CLeaveOne x' l)
| renamed_wmore xs xs' ls : Forall2 (renamed_image f base) xs xs' -> renamed_wcall f base (CLeaveMore xs ls) (CLeaveMore xs' ls).

(** The options are C++ ints and lists shorter than 2^31, as the conversions from Python leave them. *)
Definition int_options (w : wisard) : Prop :=
  is_int (w_addressSize w) /\ is_int (w_base w) /\ len (w_indexes w) <= INT_MAX /\ (forall l m, w_mapping w !! l = Some m -> Forall (fun a => len a <= INT_MAX) m).

(** The outcomes of a sequence of calls and the state after it, for a caller that goes on after an
    exception (there is nothing after undefined behaviour or non-termination). *)
Fixpoint outcomes {S C : Type} (run : S -> C -> eff S unit) (s : S) (cs : list C) : list (res unit) * S :=
  match cs with
  | [] => ([], s)
  | c :: cs => let '(o, s') := run s c in
      match o with
      | Ok _ | Throw _ => let '(os, t) := outcomes run s' cs in (o :: os, t)
      | _ => ([o], s')
      end
  end.
