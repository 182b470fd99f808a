(** Model of class DataSet, src/data/dataset.cc. *)
From Verif Require Import Prelude Bytes Base64 BinInput Fs RamData.

(** Members, dataset.cc:72-73. *)
Record dataset := DataSet { ds_data : list bininput; ds_labels : gmap Z str }.

(** DataSet(), dataset.cc:3. *)
Definition ds_empty : dataset := DataSet [] ∅.

(** add(BinInput, label), dataset.cc:30-33. The label map is keyed by int. *)
Definition ds_add (d : dataset) (input : bininput) (label : str) : dataset :=
  let labels := match label with
                | [] => ds_labels d
                | _ => <[s32 (len (ds_data d)) := label]> (ds_labels d)
                end in
  DataSet (ds_data d ++ [input]) labels.

(** add(BinInput), dataset.cc:26-28. *)
Definition ds_add_unlabelled (d : dataset) (input : bininput) : dataset := ds_add d input [].

(** add(vector<short>, label), dataset.cc:38-41: the label is recorded before the
    BinInput is built. *)
Definition ds_add_list (d : dataset) (input : list Z) (label : str) : eff dataset unit :=
  let labels := match label with
                | [] => ds_labels d
                | _ => <[s32 (len (ds_data d)) := label]> (ds_labels d)
                end in
  match bin_of_list input with
  | Ok b => (Ok tt, DataSet (ds_data d ++ [b]) labels)
  | Throw e => (Throw e, DataSet (ds_data d) labels)
  | UB u => (UB u, d)
  | Hang => (Hang, d)
  end.

(** add(vector<short>), dataset.cc:35-37. *)
Definition ds_add_list_unlabelled (d : dataset) (input : list Z) : eff dataset unit := ds_add_list d input [].

(** get(index) / operator[], dataset.cc:43-49: unchecked vector access. *)
Definition ds_get (d : dataset) (index : Z) : res bininput := vget (ds_data d) index.

(** getLabel(index), dataset.cc:51-53: labels.at(index). *)
Definition ds_getLabel (d : dataset) (index : Z) : res str :=
  match ds_labels d !! s32 index with Some l => Ok l | None => Throw EOutOfRange end.

(** size(), dataset.cc:55-57. *)
Definition ds_size (d : dataset) : Z := len (ds_data d).

(** dataset_sufix, src/common/definetypes.cc:8. *)
Definition dataset_sufix : str := lit ".wpkds".

(** One iteration of the save loop, dataset.cc:64-66: labels[i] inserts an empty label when
    there is none. The stream buffer [out] collects what is written. *)
Fixpoint ds_save_loop (data : list bininput) (i : Z) (labels : gmap Z str) (out : str)
  : gmap Z str * str :=
  match data with
  | [] => (labels, out)
  | b :: data' =>
      let label := default [] (labels !! s32 i) in
      let labels := match labels !! s32 i with Some _ => labels | None => <[s32 i := []]> labels end in
      ds_save_loop data' (i + 1) labels
        (out ++ (if i =? 0 then [] else lit ".") ++ encode label ++ lit "#" ++ bin_data b)
  end.

(** save(prefix), dataset.cc:59-69. *)
Definition ds_save (f : fs) (d : dataset) (prefix : str) : dataset * fs :=
  let '(labels, out) := ds_save_loop (ds_data d) 0 (ds_labels d) [] in
  (DataSet (ds_data d) labels, fs_append f (prefix ++ dataset_sufix) out).

(** One record of the file, dataset.cc:16-20. [int sharp] is -1 when there is no '#'. *)
Definition ds_record (input : str) : res (str * bininput) :=
  let sharp := s32 (find_str (lit "#") input) in
  let* l := substr input 0 sharp in
  let* label := decode l in
  let* d := substr input (sharp + 1) (len input - (sharp + 1)) in
  let* b := bin_of_data d in
  Ok (label, b).

Fixpoint ds_records (fs : list str) (d : dataset) : res dataset :=
  match fs with
  | [] => Ok d
  | f :: fs' =>
      let* (label, b) := ds_record f in
      ds_records fs' (ds_add d b label)
  end.

Definition ext_exn : exn := EWisard "Invalid extension type!".

(** DataSet(filename), dataset.cc:4-24. *)
Definition ds_load (f : fs) (filename : str) : res dataset :=
  let* ok := has_suffix filename dataset_sufix in
  if negb ok then Throw ext_exn
  else match fs_read f filename with
       | None => Ok ds_empty
       | Some content => ds_records (fields "." content) ds_empty
       end.
