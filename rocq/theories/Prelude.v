(** Common vocabulary of the model: outcomes of C++ calls, machine integers,
    vector accesses.  Definitions only. *)
From stdpp Require Export base option list gmap sorting strings.
From Coq Require Export Ascii ZArith Lia ZifyBool ZifyNat.
Export ListNotations.
Global Open Scope Z_scope.
Global Open Scope list_scope.

(** ** Outcomes *)

(** Exceptions that can leave a library call. [EWisard] is the package's own
    [Exception] (src/common/exceptions.cc:1-9) with its message; the others are
    the standard library / nlohmann::json exceptions the code provokes. *)
Inductive exn :=
| EWisard (msg : string)
| EOutOfRange          (* std::out_of_range (substr, unordered_map::at) *)
| ELengthError         (* std::length_error (std::string of negative size) *)
| EJsonType            (* nlohmann::json type_error *)
| EJsonParse           (* nlohmann::json parse_error *)
| EJsonRange           (* nlohmann::json out_of_range *).

(** Kinds of undefined behaviour the code can run into. *)
Inductive ub :=
| UBIndex              (* out-of-bounds vector/string access *)
| UBOverflow           (* signed integer overflow *)
| UBDivZero            (* integer division or remainder by zero *)
| UBUninit             (* read of an uninitialised member *)
| UBCast               (* float -> int conversion out of range *)
| UBNull               (* null pointer dereference *)
| UBCompare            (* std::sort with an inconsistent comparison *)
| UBShift              (* shift by a negative amount or by the width of the type *).

(** Result of evaluating a C++ expression or call. [Hang] = does not terminate. *)
Inductive res (A : Type) :=
| Ok (a : A)
| Throw (e : exn)
| UB (u : ub)
| Hang.
Arguments Ok {A} _.
Arguments Throw {A} _.
Arguments UB {A} _.
Arguments Hang {A}.

Definition rbind {A B} (m : res A) (k : A -> res B) : res B :=
  match m with Ok a => k a | Throw e => Throw e | UB u => UB u | Hang => Hang end.

Notation "'let*' x ':=' m 'in' k" := (rbind m (fun x => k))
  (at level 200, x pattern, m at level 100, k at level 200, right associativity).

Definition rmap {A B} (f : A -> B) (m : res A) : res B := rbind m (fun a => Ok (f a)).

(** Sequential evaluation of a fallible function over a list, left to right,
    stopping at the first failure (a C++ loop that fills a vector). *)
Fixpoint rmapM {A B} (f : A -> res B) (l : list A) : res (list B) :=
  match l with
  | [] => Ok []
  | x :: l' => let* y := f x in let* ys := rmapM f l' in Ok (y :: ys)
  end.

(** Mutating calls: outcome and the object's state when control returns to the
    caller (after [UB]/[Hang] the state is meaningless). *)
Definition eff (S A : Type) : Type := (res A * S)%type.

Definition ebind {S A B} (m : eff S A) (k : A -> S -> eff S B) : eff S B :=
  match m with
  | (Ok a, s) => k a s
  | (Throw e, s) => (Throw e, s)
  | (UB u, s) => (UB u, s)
  | (Hang, s) => (Hang, s)
  end.

(** Lift a pure computation to a mutator that does not touch the state. *)
Definition elift {S A} (s : S) (m : res A) : eff S A := (m, s).

(** A loop [for x in l: body] over a mutable object. *)
Fixpoint efor {S X} (body : S -> X -> eff S unit) (l : list X) (s : S) : eff S unit :=
  match l with
  | [] => (Ok tt, s)
  | x :: l' => ebind (body s x) (fun _ s' => efor body l' s')
  end.

(** ** Machine integers (x86-64: int 32 bits, long long 64 bits) *)

Definition INT_MAX : Z := 2147483647.
Definition INT_MIN : Z := -2147483648.
Definition in_int (z : Z) : bool := (INT_MIN <=? z) && (z <=? INT_MAX).

(** [int] arithmetic result: undefined when not representable. *)
Definition int_of (z : Z) : res Z := if in_int z then Ok z else UB UBOverflow.

Definition LL_MAX : Z := 9223372036854775807.
Definition LL_MIN : Z := -9223372036854775808.
Definition in_ll (z : Z) : bool := (LL_MIN <=? z) && (z <=? LL_MAX).
Definition ll_of (z : Z) : res Z := if in_ll z then Ok z else UB UBOverflow.

(** [addr_t] = [index_size_t] = unsigned long long (src/common/definetypes.cc:1-2):
    arithmetic modulo 2^64. *)
Definition W64 : Z := 18446744073709551616.
Definition u64 (z : Z) : Z := z mod W64.

Definition W32 : Z := 4294967296.
(** Conversion to [unsigned int]. *)
Definition u32 (z : Z) : Z := z mod W32.
(** Conversion of a wider integer to [int] (two's complement truncation). *)
Definition s32 (z : Z) : Z := (z + 2147483648) mod W32 - 2147483648.

(** ** Vectors *)

(** Length as an integer. *)
Definition len {A} (l : list A) : Z := Z.of_nat (List.length l).

(** [v[i]] on a std::vector: out of range is undefined. *)
Definition vget {A} (l : list A) (i : Z) : res A :=
  if (0 <=? i) then
    match l !! Z.to_nat i with Some x => Ok x | None => UB UBIndex end
  else UB UBIndex.
