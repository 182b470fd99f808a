(** Saving when the disk fills up, the process is killed or the machine stops while the file is
    being written. *)
From Verif Require Import Prelude Bytes Base64 BinInput Ram Json Fs RamData Disc DataSet.

(** open(filename, std::ios::app); << content; close() of which only the first [k] bytes reach the
    file. A stream writes a regular file in order, so what is left is a prefix; a failed write only
    sets badbit, which neither dataset.cc:59-69 nor discriminator.cc:260-281 looks at. *)
Definition fs_append_cut (k : nat) (f : fs) (name content : str) : fs := fs_append f name (take k content).

(** DataSet::save(prefix), dataset.cc:59-69, cut after [k] bytes. *)
Definition ds_save_cut (k : nat) (f : fs) (d : dataset) (prefix : str) : dataset * fs :=
  let '(labels, out) := ds_save_loop (ds_data d) 0 (ds_labels d) [] in
  (DataSet (ds_data d) labels, fs_append_cut k f (prefix ++ dataset_sufix) out).

(** The huge branch of getRAMsData, discriminator.cc:260-275, cut after [k] bytes. *)
Definition getRAMsData_cut (k : nat) (iter : iteration) (rnd : str) (f : fs) (d : disc) (prefix : str) : str * fs :=
  let filename := prefix ++ rnd ++ ramdata_sufix in
  (filename, fs_append_cut k f filename (ramsdata_file iter (d_rams d))).
(** Discriminator::json(true,path), discriminator.cc:124-133: the text is returned all the same. *)
Definition disc_json_cut (k : nat) (iter : iteration) (rnd : str) (f : fs) (d : disc) (path : str) : res json * fs :=
  let '(data, f') := getRAMsData_cut k iter rnd f d path in
  (let* config := disc_config d true in
   let config := merge_ram_config d config in
   let* config := jset config (lit "data") (JStr data) in
   let* j := jset config (lit "version") (JStr version) in retext j, f').
