(** Data sets as histories of add calls. *)
From Verif Require Import Prelude Bytes BinInput DataSet.

(** One call: add(input, label); a label [""] is what the one-argument add passes. *)
Definition adds (l : list (bininput * str)) : dataset :=
  foldl (fun d bl => ds_add d bl.1 bl.2) ds_empty l.
