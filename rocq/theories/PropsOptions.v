(** Property theorems C102: keyword arguments of the Python constructors. *)
From Verif Require Import Prelude Bytes Float32 Bleaching Utils BinInput Ram Json Fs RamData Disc Wisard Cluster ClusWisard Options SpecOptions.
From Verif Require Import OptionsProofs OptionsJson OptionsFacts.

(** C102: Wisard(a, **kwargs) has exactly the options given, the documented default for every other
    one, no discriminators, and ignores unknown names; the order of the arguments is irrelevant. *)
Theorem C102_wisard_options : forall a kwargs w, NoDup kwargs.*1 ->
  py_wisard_new a kwargs = Ok w <-> wisard_options kwargs w /\ w_addressSize w = a /\ w_discriminators w = ∅.
Proof. exact wisard_options_iff. Qed.
Print Assumptions C102_wisard_options.
Theorem C102_cluswisard_options : forall a s t l kwargs k, NoDup kwargs.*1 ->
  py_clus_new a s t l kwargs = Ok k <->
    clus_options kwargs k /\ k_addressSize k = a /\ k_minScore k = s /\ k_threshold k = t /\ k_limit k = l /\
    k_clusters k = ∅ /\ k_unsupervised k = cluster_default /\
    f32_ltb s f32_zero = false /\ f32_ltb f32_one s = false /\ 1 <= t /\ 1 <= l.
Proof.
  intros a s t l kwargs k Hnd. rewrite (clus_options_iff a s t l kwargs k Hnd).
  assert (E : checkConfigInputs s t l = Ok tt <-> f32_ltb s f32_zero = false /\ f32_ltb f32_one s = false /\ 1 <= t /\ 1 <= l).
  { unfold checkConfigInputs. destruct (f32_ltb s f32_zero); cbn [orb]; [split; [discriminate|intros (H & _); discriminate]|].
    destruct (f32_ltb f32_one s); [split; [discriminate|intros (_ & H & _); discriminate]|].
    destruct (Z.ltb_spec t 1); [split; [discriminate|intros (_ & _ & ? & _); lia]|].
    destruct (Z.ltb_spec l 1); [split; [discriminate|intros (_ & _ & _ & ?); lia]|].
    split; [auto|reflexivity]. }
  rewrite E. tauto.
Qed.
Print Assumptions C102_cluswisard_options.
Theorem C102_discriminator_options : forall dr a e kwargs iz ca base ix mp, NoDup kwargs.*1 ->
  setting PyBool kwargs (lit "ignoreZero") false iz -> setting PyBool kwargs (lit "completeAddressing") true ca ->
  setting PyInt kwargs (lit "base") 2 base -> setting PyInts kwargs (lit "indexes") [] ix -> setting PyIntss kwargs (lit "mapping") [] mp ->
  py_disc_new dr a e kwargs = disc_new dr a e iz ca ix mp base.
Proof. exact disc_options_eq. Qed.
Print Assumptions C102_discriminator_options.

(** C102: a value of the wrong type for a known option is a TypeError-like exception, never a
    silently different option. *)
Theorem C102_wrong_type : forall a kwargs,
  (exists w, py_wisard_new a kwargs = Ok w) \/ py_wisard_new a kwargs = Throw cast_exn.
Proof. exact wisard_new_run. Qed.
Print Assumptions C102_wrong_type.

(** C102: the constructor's argument order is irrelevant. *)
Theorem C102_any_order : forall a kwargs kwargs', NoDup kwargs.*1 -> kwargs ≡ₚ kwargs' -> py_wisard_new a kwargs = py_wisard_new a kwargs'.
Proof. exact wisard_new_order. Qed.
Print Assumptions C102_any_order.

(** C102: the C++ constructors with the same options as a JSON object build the same model. *)
Theorem C102_same_as_cpp : forall a kwargs w, NoDup kwargs.*1 -> Forall int_values kwargs.*2 ->
  py_wisard_new a kwargs = Ok w -> wisard_of_options a (options_json kwargs) = Ok w.
Proof. exact wisard_new_cpp. Qed.
Print Assumptions C102_same_as_cpp.
Theorem C102_same_as_cpp_clus : forall a s t l kwargs k, NoDup kwargs.*1 -> Forall int_values kwargs.*2 ->
  py_clus_new a s t l kwargs = Ok k -> clus_of_options a s t l (options_json kwargs) = Ok k.
Proof. exact clus_new_cpp. Qed.
Print Assumptions C102_same_as_cpp_clus.
Theorem C102_same_as_cpp_disc : forall dr a e kwargs d, NoDup kwargs.*1 -> Forall int_values kwargs.*2 ->
  py_disc_new dr a e kwargs = Ok d -> disc_of_options dr a e (options_json kwargs) = Ok d.
Proof. exact disc_new_cpp. Qed.
Print Assumptions C102_same_as_cpp_disc.

Definition some_kwargs : list (str * pyval) :=
  [ (lit "base", PyInt 4); (lit "verbose", PyBool true); (lit "unknown", PyOther); (lit "bleachingActivated", PyBool false);
    (lit "indexes", PyInts [3;1;2]); (lit "confidence", PyInt 7) ].
Example C102_witness : exists w, py_wisard_new 3 some_kwargs = Ok w /\ w_base w = 4 /\ w_verbose w = true /\
  w_bleachingActivated w = false /\ w_indexes w = [3;1;2] /\ w_confidence w = 7 /\ w_completeAddressing w = true /\
  NoDup some_kwargs.*1 /\ Forall int_values some_kwargs.*2.
Proof.
  set (w := match py_wisard_new 3 some_kwargs with Ok w => w | _ => Wisard 0 true true ∅ [] true true 0 true true true true 0 ∅ end).
  exists w. split; [vm_compute; reflexivity|]. repeat (split; [vm_compute; reflexivity|]).
  split; [apply (bool_decide_unpack _); vm_compute; exact I|].
  repeat constructor; cbn; unfold INT_MIN, INT_MAX; lia.
Qed.
Example C102_bad_type : py_wisard_new 3 [(lit "base", PyBool true)] = Throw cast_exn.
Proof. reflexivity. Qed.
Example C102_witness_clus : exists k, py_clus_new 3 f32_one 10 5 [(lit "base", PyInt 4); (lit "completeAddressing", PyBool false)] = Ok k /\
  k_base k = 4 /\ k_completeAddressing k = false /\ k_ignoreZero k = false.
Proof. eexists. repeat split. Qed.
