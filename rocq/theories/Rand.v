(** The process-wide generator behind std::rand() and where the package seeds it. The other model files
    take the values drawn as arbitrary; here they come from a generator that is seeded with the clock. *)
From Verif Require Import Prelude Bytes Utils BinInput Ram Json Fs RamData Disc Synth.

(** Any C library: srand(seed) sets the state, rand() returns a value and moves to the next state. *)
Record crand := CRand { cr_state : Type; cr_seed : Z -> cr_state; cr_next : cr_state -> Z * cr_state }.
(** What the C standard promises about rand(), with RAND_MAX = INT_MAX as in glibc. *)
Definition rand_ok (g : crand) : Prop := forall s, 0 <= fst (cr_next g s) <= INT_MAX.

Section Generator.
Context (g : crand).

(** [n] calls of rand() whose values are not looked at. *)
Fixpoint rand_skip (n : nat) (st : cr_state g) : cr_state g :=
  match n with O => st | S n' => rand_skip n' (snd (cr_next g st)) end.
(** The value of call number [n], from 0. *)
Definition rand_nth (n : nat) (st : cr_state g) : Z := fst (cr_next g (rand_skip n st)).

(** randint(min, max, isSeed), utils.cc:1-5; [now] is time(NULL). *)
Definition randint_at (now min max : Z) (isSeed : bool) (st : cr_state g) : eff (cr_state g) Z :=
  let st := if isSeed then cr_seed g (u32 now) else st in
  let '(r, st') := cr_next g st in (randint min max r, st').

(** srand(randint(0, top)): discriminator.cc:20, wisard.cc:6, cluswisard.cc:10, synthesizers.cc:6,
    discriminatorwrapper.cc:12. *)
Definition srand_randint (now top : Z) (st : cr_state g) : eff (cr_state g) unit :=
  ebind (randint_at now 0 top true st) (fun v _ => (Ok tt, cr_seed g (u32 v))).

(** random_shuffle(first, last) of libstdc++ (bits/stl_algo.h): for i = 1, 2, ... swap i with
    rand() % (i + 1). *)
Definition swap (i j : nat) (l : list Z) : list Z :=
  match l !! i, l !! j with Some x, Some y => <[i := y]> (<[j := x]> l) | _, _ => l end.
Fixpoint shuffle_loop (left i : nat) (l : list Z) (st : cr_state g) : list Z * cr_state g :=
  match left with
  | O => (l, st)
  | S left' => let '(r, st') := cr_next g st in shuffle_loop left' (S i) (swap i (Z.to_nat (Z.rem r (Z.of_nat i + 1))) l) st'
  end.
Definition random_shuffle (l : list Z) (st : cr_state g) : list Z * cr_state g := shuffle_loop (length l - 1) 1 l st.

(** getRandomString(len), utils.cc:11-21. *)
Definition alphanum : str := lit "ABCDEFGHIJKLMNOPQRSTUVWXYZabcdefghijklmnopqrstuvwxyz0123456789".
Fixpoint random_string (n : nat) (st : cr_state g) : str * cr_state g :=
  match n with
  | O => ([], st)
  | S n' => let '(r, st1) := cr_next g st in
            let '(s, st2) := random_string n' st1 in
            (nth (Z.to_nat (Z.rem r (len alphanum - 1))) alphanum "000"%char :: s, st2)
  end.

(** The choices setRAMShuffle makes from state [st] (discriminator.cc:186-190): [extra] calls of
    randint without seeding, then random_shuffle. *)
Definition draw_of (extra : nat) (st : cr_state g) : draw :=
  Draw (fun i => rand_nth i st) (fun l => fst (random_shuffle l (rand_skip extra st))).
(** Number of extra indexes, discriminator.cc:173-179. *)
Definition extra_indexes (entrySize addressSize : Z) (completeAddressing : bool) : nat :=
  Z.to_nat (if completeAddressing && (0 <? Z.rem entrySize addressSize) then addressSize - Z.rem entrySize addressSize else 0).

(** setRAMShuffle: the discriminator and the state left behind; the generator is used once the checks
    of lines 169-170 have passed. *)
Definition setRAMShuffle_at (entrySize addressSize : Z) (ignoreZero completeAddressing : bool) (base : Z) (st : cr_state g)
  : eff (cr_state g) disc :=
  let extra := extra_indexes entrySize addressSize completeAddressing in
  (setRAMShuffle (draw_of extra st) entrySize addressSize ignoreZero completeAddressing base,
   match (let* _ := checkAddressSize entrySize addressSize in checkBase base) with
   | Ok _ => rand_skip (extra + (Z.to_nat entrySize + extra - 1)) st
   | _ => st
   end).

(** Discriminator(addressSize, entrySize, options), discriminator.cc:19-50, and DiscriminatorWrapper,
    discriminatorwrapper.cc:5-43: seeded with the clock, whatever the arguments. *)
Definition disc_new_at (now addressSize entrySize : Z) (ignoreZero completeAddressing : bool)
    (indexes : list Z) (mapping : list (list Z)) (base : Z) (st : cr_state g) : eff (cr_state g) disc :=
  ebind (srand_randint now 100000 st) (fun _ st =>
    if negb (Nat.eqb (length mapping) 0) then (setRAMByMapping mapping entrySize ignoreZero base, st)
    else if negb (Nat.eqb (length indexes) 0) then (setRAMByIndex indexes entrySize addressSize ignoreZero base, st)
    else setRAMShuffle_at entrySize addressSize ignoreZero completeAddressing base st).

(** json(huge, path), discriminator.cc:124-133: the name of the file is drawn without seeding. *)
Definition disc_json_at (iter : iteration) (f : fs) (d : disc) (huge : bool) (path : str) (st : cr_state g)
  : (res json * fs) * cr_state g :=
  if huge then let '(rnd, st') := random_string 10 st in (disc_json iter rnd f d true path, st')
  else (disc_json iter [] f d false path, st).

(** Synthesizer::make, synthesizers.cc:9-23: randint seeds. *)
Definition synth_make_at (now : Z) (s : synth) (st : cr_state g) : eff (cr_state g) (list Z) :=
  let st := cr_seed g (u32 now) in
  let '(r, st') := cr_next g st in (synth_make s r, st').

(** RAM(addressSize, entrySize, ignoreZero, base), ram.cc:14-18, with generateRandomAddresses,
    ram.cc:180-184: every address calls randint, which seeds; [now i] is the clock at address i. *)
Fixpoint random_addresses (left i : nat) (now : nat -> Z) (entrySize : Z) (st : cr_state g) : eff (cr_state g) (list Z) :=
  match left with
  | O => (Ok [], st)
  | S left' =>
      match int_of (entrySize - 1) with
      | Ok top =>
          ebind (randint_at (now i) 0 top true st) (fun a st =>
          ebind (random_addresses left' (S i) now entrySize st) (fun l st => (Ok (a :: l), st)))
      | _ => (UB UBOverflow, st)
      end
  end.
(** std::vector<int>(addressSize) throws length_error for a negative size. *)
Definition ram_random_at (now : nat -> Z) (addressSize entrySize : Z) (ignoreZero : bool) (base : Z) (st : cr_state g) : eff (cr_state g) ram :=
  match checkLimitAddressSize addressSize base with
  | Ok _ =>
      if addressSize <? 0 then (Throw ELengthError, st)
      else ebind (random_addresses (Z.to_nat addressSize) 0 now entrySize st) (fun l st => (Ok (Ram l ∅ ignoreZero base), st))
  | Throw e => (Throw e, st)
  | UB u => (UB u, st)
  | Hang => (Hang, st)
  end.
End Generator.
