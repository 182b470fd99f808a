(** What the members of a JSON object given to a constructor mean (for C133, C134). *)
From Verif Require Import Prelude Bytes Float32 Bleaching Json Disc Wisard ClusWisard.

(** The member of that name, null if there is none. *)
Definition has (l : list (str * json)) (name : str) (v : json) : Prop :=
  (name, v) ∈ l \/ (v = JNull /\ forall v', (name, v') ∉ l).

(** A number read as an int: an integer modulo 2^32, a boolean as 0 or 1, a number with a
    fraction truncated. *)
Inductive int_read : json -> Z -> Prop :=
| int_integer z i : INT_MIN <= i <= INT_MAX -> (z - i) mod 2 ^ 32 = 0 -> int_read (JInt z) i
| int_true : int_read (JBool true) 1
| int_false : int_read (JBool false) 0
| int_fraction f i : f32_trunc f = Some i -> INT_MIN <= i <= INT_MAX -> int_read (JFloat f) i.
Inductive bool_read : json -> bool -> Prop := bool_bool b : bool_read (JBool b) b.
(** Lists of ints, lists of lists, and one list of lists per label. *)
Inductive ints_read : json -> list Z -> Prop := ints_list js zs : Forall2 int_read js zs -> ints_read (JArr js) zs.
Inductive intss_read : json -> list (list Z) -> Prop := intss_list js zss : Forall2 ints_read js zss -> intss_read (JArr js) zss.
Inductive mappings_read : json -> gmap str (list (list Z)) -> Prop :=
| mappings_object l m : (forall name zss, m !! name = Some zss -> exists v, (name, v) ∈ l /\ intss_read v zss) ->
    (forall name v, (name, v) ∈ l -> exists zss, m !! name = Some zss /\ intss_read v zss) -> mappings_read (JObj l) m.

(** The option of that name ends up as x: as read from its member, or the default for null. *)
Definition option_read {A} (read : json -> A -> Prop) (l : list (str * json)) (name : str) (dflt x : A) : Prop :=
  exists v, has l name v /\ ((v = JNull /\ x = dflt) \/ read v x).

Definition wisard_read (l : list (str * json)) (w : wisard) : Prop :=
  option_read bool_read l (lit "bleachingActivated") true (w_bleachingActivated w) /\
  option_read bool_read l (lit "verbose") false (w_verbose w) /\
  option_read bool_read l (lit "ignoreZero") false (w_ignoreZero w) /\
  option_read bool_read l (lit "completeAddressing") true (w_completeAddressing w) /\
  option_read mappings_read l (lit "mapping") ∅ (w_mapping w) /\
  option_read ints_read l (lit "indexes") [] (w_indexes w) /\
  option_read int_read l (lit "base") 2 (w_base w) /\
  option_read int_read l (lit "confidence") 1 (w_confidence w) /\
  option_read bool_read l (lit "searchBestConfidence") false (w_searchBestConfidence w) /\
  option_read bool_read l (lit "returnConfidence") false (w_returnConfidence w) /\
  option_read bool_read l (lit "returnActivationDegree") false (w_returnActivationDegree w) /\
  option_read bool_read l (lit "returnClassesDegrees") false (w_returnClassesDegrees w).
Definition clus_read (l : list (str * json)) (k : cluswisard) : Prop :=
  option_read bool_read l (lit "bleachingActivated") true (k_bleachingActivated k) /\
  option_read bool_read l (lit "verbose") false (k_verbose k) /\
  option_read bool_read l (lit "ignoreZero") false (k_ignoreZero k) /\
  option_read bool_read l (lit "completeAddressing") true (k_completeAddressing k) /\
  option_read int_read l (lit "base") 2 (k_base k) /\
  option_read int_read l (lit "confidence") 1 (k_confidence k) /\
  option_read bool_read l (lit "searchBestConfidence") false (k_searchBestConfidence k) /\
  option_read bool_read l (lit "returnConfidence") false (k_returnConfidence k) /\
  option_read bool_read l (lit "returnActivationDegree") false (k_returnActivationDegree k) /\
  option_read bool_read l (lit "returnClassesDegrees") false (k_returnClassesDegrees k).

(** A float: any number (or boolean). *)
Inductive float_read : json -> f32 -> Prop :=
| float_integer z : float_read (JInt z) (f32_of_Z z)
| float_bool b : float_read (JBool b) (f32_of_Z (if b then 1 else 0))
| float_fraction f : float_read (JFloat f) (f32_of_f64 f).
Definition member_read {A} (read : json -> A -> Prop) (l : list (str * json)) (name : str) (x : A) : Prop :=
  exists v, has l name v /\ read v x.
(** What the constructor of ClusWisard asks of its arguments. *)
Definition valid_config (minScore : f32) (threshold limit : Z) : Prop :=
  f32_ltb minScore f32_zero = false /\ f32_ltb f32_one minScore = false /\ 1 <= threshold /\ 1 <= limit.
