(** Which images a RAM cannot tell apart when pixels may be negative. *)
From Verif Require Import Prelude Bytes BinInput Ram Disc SpecDisc.

(** An image train and classify accept: right length, and below base at every position read; nothing
    is asked of negative values. *)
Definition takes (d : disc) (x : image) : Prop :=
  s32 (im_size x) = d_entrySize d /\
  Forall (fun r => Forall (fun a => exists v, im_get x a = Ok v /\ v < r_base r) (r_addresses r)) (d_rams d).

(** The pixels read, weighed with the powers of base: pixel 0 + base * pixel 1 + base^2 * pixel 2 ... *)
Fixpoint weigh (base : Z) (addrs : list Z) (x : image) : Z :=
  match addrs with
  | [] => 0
  | a :: addrs' => match im_get x a with Ok v => v | _ => 0 end + base * weigh base addrs' x
  end.
(** Two images are confused when their weights differ by a multiple of 2^64. *)
Definition confused (base : Z) (addrs : list Z) (x y : image) : Prop := (weigh base addrs x - weigh base addrs y) mod 2 ^ 64 = 0.
Global Instance confused_dec base addrs x y : Decision (confused base addrs x y).
Proof. unfold confused. apply _. Defined.

(** The vote of a RAM after training on [xs]: how many of them it confuses with x; 0 if ignoreZero
    is set and the weight of x is a multiple of 2^64. *)
Definition alias_vote (r : ram) (xs : list image) (x : image) : Z :=
  if r_ignoreZero r && (weigh (r_base r) (r_addresses r) x mod 2 ^ 64 =? 0) then 0
  else count_if (fun y => bool_decide (confused (r_base r) (r_addresses r) y x)) xs.
