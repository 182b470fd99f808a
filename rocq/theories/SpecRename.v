(** Renaming the labels of a Wisard and of the calls on it (for C139). *)
From Verif Require Import Prelude Bytes BinInput Disc Wisard SpecWisard.

(** [f] renames labels and [g] names them back. *)
Definition renaming (f g : str -> str) : Prop := forall l, g (f l) = l.
(** The same Wisard with every label renamed. *)
Definition rename (f : str -> str) (w : wisard) : wisard :=
  Wisard (w_addressSize w) (w_bleachingActivated w) (w_verbose w) (kmap f (w_mapping w)) (w_indexes w) (w_ignoreZero w) (w_completeAddressing w) (w_base w)
    (w_searchBestConfidence w) (w_returnConfidence w) (w_returnActivationDegree w) (w_returnClassesDegrees w) (w_confidence w) (kmap f (w_discriminators w)).
(** The same call with every label renamed, with the same random choices. *)
Definition rename_call (f g : str -> str) (c : wcall) : wcall :=
  match c with
  | CTrain env images labels => CTrain (fun l => env (g l)) images (f <$> labels)
  | CLeaveOne im label => CLeaveOne im (f label)
  | CLeaveMore images labels => CLeaveMore images (f <$> labels)
  end.
