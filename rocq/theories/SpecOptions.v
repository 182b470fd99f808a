(** What the keyword arguments of the Python constructors should mean. *)
From Verif Require Import Prelude Bytes Float32 Bleaching Json Disc Wisard ClusWisard Options.

(** The option [name] ends up as x: the value given for it, or the default if none is given. *)
Definition setting {A} (inj : A -> pyval) (kwargs : list (str * pyval)) (name : str) (dflt x : A) : Prop :=
  (name, inj x) ∈ kwargs \/ ((forall v, (name, v) ∉ kwargs) /\ x = dflt).

(** The Wisard and the ClusWisard with these options. *)
Definition wisard_options (kwargs : list (str * pyval)) (w : wisard) : Prop :=
  setting PyBool kwargs (lit "bleachingActivated") true (w_bleachingActivated w) /\
  setting PyBool kwargs (lit "verbose") false (w_verbose w) /\
  setting PyBool kwargs (lit "ignoreZero") false (w_ignoreZero w) /\
  setting PyBool kwargs (lit "completeAddressing") true (w_completeAddressing w) /\
  setting PyMappings kwargs (lit "mapping") ∅ (w_mapping w) /\
  setting PyInts kwargs (lit "indexes") [] (w_indexes w) /\
  setting PyInt kwargs (lit "base") 2 (w_base w) /\
  setting PyBool kwargs (lit "searchBestConfidence") false (w_searchBestConfidence w) /\
  setting PyBool kwargs (lit "returnConfidence") false (w_returnConfidence w) /\
  setting PyBool kwargs (lit "returnActivationDegree") false (w_returnActivationDegree w) /\
  setting PyBool kwargs (lit "returnClassesDegrees") false (w_returnClassesDegrees w) /\
  setting PyInt kwargs (lit "confidence") 1 (w_confidence w).
Definition clus_options (kwargs : list (str * pyval)) (k : cluswisard) : Prop :=
  setting PyBool kwargs (lit "bleachingActivated") true (k_bleachingActivated k) /\
  setting PyBool kwargs (lit "verbose") false (k_verbose k) /\
  setting PyBool kwargs (lit "ignoreZero") false (k_ignoreZero k) /\
  setting PyBool kwargs (lit "completeAddressing") true (k_completeAddressing k) /\
  setting PyInt kwargs (lit "base") 2 (k_base k) /\
  setting PyBool kwargs (lit "searchBestConfidence") false (k_searchBestConfidence k) /\
  setting PyBool kwargs (lit "returnConfidence") false (k_returnConfidence k) /\
  setting PyBool kwargs (lit "returnActivationDegree") false (k_returnActivationDegree k) /\
  setting PyBool kwargs (lit "returnClassesDegrees") false (k_returnClassesDegrees k) /\
  setting PyInt kwargs (lit "confidence") 1 (k_confidence k).

(** The same options as a JSON value, for the C++ constructors. *)
Definition pyjson (v : pyval) : json :=
  match v with
  | PyBool b => JBool b
  | PyInt z => JInt z
  | PyInts l => jints l
  | PyIntss l => jintss l
  | PyMappings m => JObj ((fun kv => (kv.1, jintss kv.2)) <$> sorted_items m)
  | PyOther => JStr []
  end.
Definition options_json (kwargs : list (str * pyval)) : json := jobject ((fun kv => (kv.1, pyjson kv.2)) <$> kwargs).
(** Every integer given is an int. *)
Definition int_values (v : pyval) : Prop :=
  match v with
  | PyInt z => INT_MIN <= z <= INT_MAX
  | PyInts l => Forall (fun z => INT_MIN <= z <= INT_MAX) l
  | PyIntss l => Forall (Forall (fun z => INT_MIN <= z <= INT_MAX)) l
  | PyMappings m => forall k l, m !! k = Some l -> Forall (Forall (fun z => INT_MIN <= z <= INT_MAX)) l
  | _ => True
  end.
