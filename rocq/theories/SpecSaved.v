(** Vocabulary for saving and reloading (C57-C63). *)
From Verif Require Import Prelude Bytes BinInput Ram Json Disc Wisard SpecDisc SpecWisard.

(** Number of characters of the saved RAM contents plus one: 16 per stored address and a
    separator per RAM. The code indexes that text with int. *)
Definition saved_size (d : disc) : Z := zsum ((fun r => 16 * Z.of_nat (size (r_positions r)) + 1) <$> d_rams d).

(** A Wisard with the same discriminators and options, except that no mapping is configured and
    searchBestConfidence is off. *)
Definition without_mapping (w : wisard) : wisard :=
  Wisard (w_addressSize w) (w_bleachingActivated w) (w_verbose w) ∅ (w_indexes w)
    (w_ignoreZero w) (w_completeAddressing w) (w_base w) false
    (w_returnConfidence w) (w_returnActivationDegree w) (w_returnClassesDegrees w)
    (w_confidence w) (w_discriminators w).

(** Options are C ints and vectors. *)
Definition int_options (w : wisard) : Prop :=
  is_int (w_addressSize w) /\ is_int (w_base w) /\ is_int (w_confidence w) /\
  Forall is_int (w_indexes w) /\ len (w_indexes w) <= INT_MAX /\
  forall l m, w_mapping w !! l = Some m -> Forall (fun addrs => len addrs <= INT_MAX) m.
(** No label is configured with a mapping without RAMs. *)
Definition some_rams (w : wisard) : Prop := forall l, w_mapping w !! l <> Some [].

(** The call only names labels the Wisard already knows. *)
Definition on_known (w : wisard) (c : wcall) : Prop :=
  Forall (fun l => is_Some (w_discriminators w !! l))
    (match c with CTrain _ _ labels => labels | CLeaveOne _ l => [l] | CLeaveMore _ labels => labels end).
