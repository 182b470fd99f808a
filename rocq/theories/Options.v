(** Keyword arguments of the Python constructors, src/wrappers/*wrapper.cc. *)
From Verif Require Import Prelude Bytes Float32 Utils BinInput Ram Json Fs RamData Disc Wisard Cluster ClusWisard.

(** A keyword argument's value after pybind11's conversion to the C++ type it has in Python.
    pybind11's implicit conversions between these types (e.g. bool from None) are not modelled:
    arg.second.cast<T>() of another type throws, and an integer pybind11 cannot fit in an int is a
    PyOther. *)
Inductive pyval :=
| PyBool (b : bool)
| PyInt (z : Z)
| PyInts (l : list Z)
| PyIntss (l : list (list Z))
| PyMappings (m : gmap str (list (list Z)))
| PyOther.
Definition cast_exn : exn := EWisard "Unable to cast Python instance to C++ type".
Definition cast_bool (v : pyval) : res bool := match v with PyBool b => Ok b | _ => Throw cast_exn end.
Definition cast_int (v : pyval) : res Z := match v with PyInt z => Ok z | _ => Throw cast_exn end.
Definition cast_ints (v : pyval) : res (list Z) := match v with PyInts l => Ok l | _ => Throw cast_exn end.
Definition cast_intss (v : pyval) : res (list (list Z)) := match v with PyIntss l => Ok l | _ => Throw cast_exn end.
Definition cast_mappings (v : pyval) : res (gmap str (list (list Z))) := match v with PyMappings m => Ok m | _ => Throw cast_exn end.

(** if(key.compare(name) == 0) member = arg.second.cast<T>(); *)
Definition kwarg {S A} (name : str) (cast : pyval -> res A) (set : S -> A -> S) (kv : str * pyval) (s : S) : res S :=
  if decide (kv.1 = name) then let* a := cast kv.2 in Ok (set s a) else Ok s.
(** for(auto arg: kwargs) body. *)
Definition kwargs_loop {S} (body : str * pyval -> S -> res S) (kwargs : list (str * pyval)) (s : S) : res S :=
  foldl (fun r kv => let* s := r in body kv s) (Ok s) kwargs.

(** WisardWrapper(addressSize, kwargs), wisardwrapper.cc:5-44. *)
Definition wset_bleachingActivated (w : wisard) x := Wisard (w_addressSize w) x (w_verbose w) (w_mapping w) (w_indexes w) (w_ignoreZero w) (w_completeAddressing w) (w_base w) (w_searchBestConfidence w) (w_returnConfidence w) (w_returnActivationDegree w) (w_returnClassesDegrees w) (w_confidence w) (w_discriminators w).
Definition wset_verbose (w : wisard) x := Wisard (w_addressSize w) (w_bleachingActivated w) x (w_mapping w) (w_indexes w) (w_ignoreZero w) (w_completeAddressing w) (w_base w) (w_searchBestConfidence w) (w_returnConfidence w) (w_returnActivationDegree w) (w_returnClassesDegrees w) (w_confidence w) (w_discriminators w).
Definition wset_ignoreZero (w : wisard) x := Wisard (w_addressSize w) (w_bleachingActivated w) (w_verbose w) (w_mapping w) (w_indexes w) x (w_completeAddressing w) (w_base w) (w_searchBestConfidence w) (w_returnConfidence w) (w_returnActivationDegree w) (w_returnClassesDegrees w) (w_confidence w) (w_discriminators w).
Definition wset_completeAddressing (w : wisard) x := Wisard (w_addressSize w) (w_bleachingActivated w) (w_verbose w) (w_mapping w) (w_indexes w) (w_ignoreZero w) x (w_base w) (w_searchBestConfidence w) (w_returnConfidence w) (w_returnActivationDegree w) (w_returnClassesDegrees w) (w_confidence w) (w_discriminators w).
Definition wset_mapping (w : wisard) x := Wisard (w_addressSize w) (w_bleachingActivated w) (w_verbose w) x (w_indexes w) (w_ignoreZero w) (w_completeAddressing w) (w_base w) (w_searchBestConfidence w) (w_returnConfidence w) (w_returnActivationDegree w) (w_returnClassesDegrees w) (w_confidence w) (w_discriminators w).
Definition wset_indexes (w : wisard) x := Wisard (w_addressSize w) (w_bleachingActivated w) (w_verbose w) (w_mapping w) x (w_ignoreZero w) (w_completeAddressing w) (w_base w) (w_searchBestConfidence w) (w_returnConfidence w) (w_returnActivationDegree w) (w_returnClassesDegrees w) (w_confidence w) (w_discriminators w).
Definition wset_base (w : wisard) x := Wisard (w_addressSize w) (w_bleachingActivated w) (w_verbose w) (w_mapping w) (w_indexes w) (w_ignoreZero w) (w_completeAddressing w) x (w_searchBestConfidence w) (w_returnConfidence w) (w_returnActivationDegree w) (w_returnClassesDegrees w) (w_confidence w) (w_discriminators w).
Definition wset_searchBestConfidence (w : wisard) x := Wisard (w_addressSize w) (w_bleachingActivated w) (w_verbose w) (w_mapping w) (w_indexes w) (w_ignoreZero w) (w_completeAddressing w) (w_base w) x (w_returnConfidence w) (w_returnActivationDegree w) (w_returnClassesDegrees w) (w_confidence w) (w_discriminators w).
Definition wset_returnConfidence (w : wisard) x := Wisard (w_addressSize w) (w_bleachingActivated w) (w_verbose w) (w_mapping w) (w_indexes w) (w_ignoreZero w) (w_completeAddressing w) (w_base w) (w_searchBestConfidence w) x (w_returnActivationDegree w) (w_returnClassesDegrees w) (w_confidence w) (w_discriminators w).
Definition wset_returnActivationDegree (w : wisard) x := Wisard (w_addressSize w) (w_bleachingActivated w) (w_verbose w) (w_mapping w) (w_indexes w) (w_ignoreZero w) (w_completeAddressing w) (w_base w) (w_searchBestConfidence w) (w_returnConfidence w) x (w_returnClassesDegrees w) (w_confidence w) (w_discriminators w).
Definition wset_returnClassesDegrees (w : wisard) x := Wisard (w_addressSize w) (w_bleachingActivated w) (w_verbose w) (w_mapping w) (w_indexes w) (w_ignoreZero w) (w_completeAddressing w) (w_base w) (w_searchBestConfidence w) (w_returnConfidence w) (w_returnActivationDegree w) x (w_confidence w) (w_discriminators w).
Definition wset_confidence (w : wisard) x := Wisard (w_addressSize w) (w_bleachingActivated w) (w_verbose w) (w_mapping w) (w_indexes w) (w_ignoreZero w) (w_completeAddressing w) (w_base w) (w_searchBestConfidence w) (w_returnConfidence w) (w_returnActivationDegree w) (w_returnClassesDegrees w) x (w_discriminators w).
Definition wisard_kwarg (kv : str * pyval) (s : wisard) : res wisard :=
  let* s := kwarg (lit "bleachingActivated") cast_bool wset_bleachingActivated kv s in
  let* s := kwarg (lit "verbose") cast_bool wset_verbose kv s in
  let* s := kwarg (lit "ignoreZero") cast_bool wset_ignoreZero kv s in
  let* s := kwarg (lit "completeAddressing") cast_bool wset_completeAddressing kv s in
  let* s := kwarg (lit "mapping") cast_mappings wset_mapping kv s in
  let* s := kwarg (lit "indexes") cast_ints wset_indexes kv s in
  let* s := kwarg (lit "base") cast_int wset_base kv s in
  let* s := kwarg (lit "searchBestConfidence") cast_bool wset_searchBestConfidence kv s in
  let* s := kwarg (lit "returnConfidence") cast_bool wset_returnConfidence kv s in
  let* s := kwarg (lit "returnActivationDegree") cast_bool wset_returnActivationDegree kv s in
  let* s := kwarg (lit "returnClassesDegrees") cast_bool wset_returnClassesDegrees kv s in
  let* s := kwarg (lit "confidence") cast_int wset_confidence kv s in
  Ok s.
Definition py_wisard_new (addressSize : Z) (kwargs : list (str * pyval)) : res wisard :=
  let* w := wisard_of_options addressSize (jobject []) in kwargs_loop wisard_kwarg kwargs w.

(** ClusWisardWrapper(addressSize, minScore, threshold, discriminatorsLimit, kwargs), cluswisardwrapper.cc:5-39. *)
Definition kset_bleachingActivated (k : cluswisard) x := ClusWisard (k_addressSize k) (k_minScore k) (k_threshold k) (k_limit k) x (k_verbose k) (k_completeAddressing k) (k_ignoreZero k) (k_base k) (k_searchBestConfidence k) (k_returnConfidence k) (k_returnActivationDegree k) (k_returnClassesDegrees k) (k_confidence k) (k_clusters k) (k_unsupervised k).
Definition kset_verbose (k : cluswisard) x := ClusWisard (k_addressSize k) (k_minScore k) (k_threshold k) (k_limit k) (k_bleachingActivated k) x (k_completeAddressing k) (k_ignoreZero k) (k_base k) (k_searchBestConfidence k) (k_returnConfidence k) (k_returnActivationDegree k) (k_returnClassesDegrees k) (k_confidence k) (k_clusters k) (k_unsupervised k).
Definition kset_ignoreZero (k : cluswisard) x := ClusWisard (k_addressSize k) (k_minScore k) (k_threshold k) (k_limit k) (k_bleachingActivated k) (k_verbose k) (k_completeAddressing k) x (k_base k) (k_searchBestConfidence k) (k_returnConfidence k) (k_returnActivationDegree k) (k_returnClassesDegrees k) (k_confidence k) (k_clusters k) (k_unsupervised k).
Definition kset_completeAddressing (k : cluswisard) x := ClusWisard (k_addressSize k) (k_minScore k) (k_threshold k) (k_limit k) (k_bleachingActivated k) (k_verbose k) x (k_ignoreZero k) (k_base k) (k_searchBestConfidence k) (k_returnConfidence k) (k_returnActivationDegree k) (k_returnClassesDegrees k) (k_confidence k) (k_clusters k) (k_unsupervised k).
Definition kset_base (k : cluswisard) x := ClusWisard (k_addressSize k) (k_minScore k) (k_threshold k) (k_limit k) (k_bleachingActivated k) (k_verbose k) (k_completeAddressing k) (k_ignoreZero k) x (k_searchBestConfidence k) (k_returnConfidence k) (k_returnActivationDegree k) (k_returnClassesDegrees k) (k_confidence k) (k_clusters k) (k_unsupervised k).
Definition kset_searchBestConfidence (k : cluswisard) x := ClusWisard (k_addressSize k) (k_minScore k) (k_threshold k) (k_limit k) (k_bleachingActivated k) (k_verbose k) (k_completeAddressing k) (k_ignoreZero k) (k_base k) x (k_returnConfidence k) (k_returnActivationDegree k) (k_returnClassesDegrees k) (k_confidence k) (k_clusters k) (k_unsupervised k).
Definition kset_returnConfidence (k : cluswisard) x := ClusWisard (k_addressSize k) (k_minScore k) (k_threshold k) (k_limit k) (k_bleachingActivated k) (k_verbose k) (k_completeAddressing k) (k_ignoreZero k) (k_base k) (k_searchBestConfidence k) x (k_returnActivationDegree k) (k_returnClassesDegrees k) (k_confidence k) (k_clusters k) (k_unsupervised k).
Definition kset_returnActivationDegree (k : cluswisard) x := ClusWisard (k_addressSize k) (k_minScore k) (k_threshold k) (k_limit k) (k_bleachingActivated k) (k_verbose k) (k_completeAddressing k) (k_ignoreZero k) (k_base k) (k_searchBestConfidence k) (k_returnConfidence k) x (k_returnClassesDegrees k) (k_confidence k) (k_clusters k) (k_unsupervised k).
Definition kset_returnClassesDegrees (k : cluswisard) x := ClusWisard (k_addressSize k) (k_minScore k) (k_threshold k) (k_limit k) (k_bleachingActivated k) (k_verbose k) (k_completeAddressing k) (k_ignoreZero k) (k_base k) (k_searchBestConfidence k) (k_returnConfidence k) (k_returnActivationDegree k) x (k_confidence k) (k_clusters k) (k_unsupervised k).
Definition kset_confidence (k : cluswisard) x := ClusWisard (k_addressSize k) (k_minScore k) (k_threshold k) (k_limit k) (k_bleachingActivated k) (k_verbose k) (k_completeAddressing k) (k_ignoreZero k) (k_base k) (k_searchBestConfidence k) (k_returnConfidence k) (k_returnActivationDegree k) (k_returnClassesDegrees k) x (k_clusters k) (k_unsupervised k).
Definition clus_kwarg (kv : str * pyval) (s : cluswisard) : res cluswisard :=
  let* s := kwarg (lit "bleachingActivated") cast_bool kset_bleachingActivated kv s in
  let* s := kwarg (lit "verbose") cast_bool kset_verbose kv s in
  let* s := kwarg (lit "ignoreZero") cast_bool kset_ignoreZero kv s in
  let* s := kwarg (lit "completeAddressing") cast_bool kset_completeAddressing kv s in
  let* s := kwarg (lit "base") cast_int kset_base kv s in
  let* s := kwarg (lit "searchBestConfidence") cast_bool kset_searchBestConfidence kv s in
  let* s := kwarg (lit "returnConfidence") cast_bool kset_returnConfidence kv s in
  let* s := kwarg (lit "returnActivationDegree") cast_bool kset_returnActivationDegree kv s in
  let* s := kwarg (lit "returnClassesDegrees") cast_bool kset_returnClassesDegrees kv s in
  let* s := kwarg (lit "confidence") cast_int kset_confidence kv s in
  Ok s.
Definition py_clus_new (addressSize : Z) (minScore : f32) (threshold limit : Z) (kwargs : list (str * pyval)) : res cluswisard :=
  let* k := clus_of_options addressSize minScore threshold limit (jobject []) in kwargs_loop clus_kwarg kwargs k.

(** DiscriminatorWrapper(addressSize, entrySize, kwargs), discriminatorwrapper.cc:5-43. *)
Record dopts := DOpts { o_ignoreZero : bool; o_completeAddressing : bool; o_base : Z; o_indexes : list Z; o_mapping : list (list Z) }.
Definition disc_kwarg (kv : str * pyval) (s : dopts) : res dopts :=
  let* s := kwarg (lit "ignoreZero") cast_bool (fun o x => DOpts x (o_completeAddressing o) (o_base o) (o_indexes o) (o_mapping o)) kv s in
  let* s := kwarg (lit "completeAddressing") cast_bool (fun o x => DOpts (o_ignoreZero o) x (o_base o) (o_indexes o) (o_mapping o)) kv s in
  let* s := kwarg (lit "base") cast_int (fun o x => DOpts (o_ignoreZero o) (o_completeAddressing o) x (o_indexes o) (o_mapping o)) kv s in
  let* s := kwarg (lit "indexes") cast_ints (fun o x => DOpts (o_ignoreZero o) (o_completeAddressing o) (o_base o) x (o_mapping o)) kv s in
  let* s := kwarg (lit "mapping") cast_intss (fun o x => DOpts (o_ignoreZero o) (o_completeAddressing o) (o_base o) (o_indexes o) x) kv s in
  Ok s.
Definition py_disc_new (dr : draw) (addressSize entrySize : Z) (kwargs : list (str * pyval)) : res disc :=
  let* o := kwargs_loop disc_kwarg kwargs (DOpts false true 2 [] []) in
  disc_new dr addressSize entrySize (o_ignoreZero o) (o_completeAddressing o) (o_indexes o) (o_mapping o) (o_base o).
