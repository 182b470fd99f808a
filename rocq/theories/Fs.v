(** Files: std::ofstream opened with ios::app and std::ifstream. *)
From Verif Require Import Prelude Bytes.

(** [fs_files]: contents of existing files; [fs_writable]: names for which opening for
    append succeeds (directory exists, permissions, ...). Writes to a stream that
    failed to open are silently dropped, as in C++. *)
Record fs := Fs { fs_files : gmap str str; fs_writable : str -> bool }.

(** dataFile.open(filename, std::ios::app); dataFile << content; dataFile.close(). *)
Definition fs_append (f : fs) (name content : str) : fs :=
  if fs_writable f name
  then Fs (<[name := default [] (fs_files f !! name) ++ content]> (fs_files f)) (fs_writable f)
  else f.

(** std::ifstream open + read; [None]: is_open() is false. *)
Definition fs_read (f : fs) (name : str) : option str := fs_files f !! name.

(** The fields read by [while(true){ if(eof()) break; getline(file, field, '.'); ... }]
    (dataset.cc:12-16, ramdatahandle.cc:77-81): getline until it hits the end of file. *)
Fixpoint fields_fuel (fuel : nat) (delim : ascii) (s : str) : list str :=
  match fuel with
  | O => []
  | S fuel' =>
      let '(f, r, e) := getline delim s in
      if e then [f] else f :: fields_fuel fuel' delim r
  end.
Definition fields (delim : ascii) (s : str) : list str := fields_fuel (S (length s)) delim s.
