(** Proofs of C102. *)
From Verif Require Import Prelude Bytes Float32 Bleaching Utils BinInput Ram Json Fs RamData Disc Wisard Cluster ClusWisard Options SpecOptions.
From Verif Require Import OptionsProofs OptionsJson.

Definition w_init (a : Z) : wisard := Wisard a true false ∅ [] false true 2 false false false false 1 ∅.
Lemma py_wisard_new_eq a kwargs : py_wisard_new a kwargs = kwargs_loop wisard_kwarg kwargs (w_init a).
Proof. reflexivity. Qed.
Lemma wisard_options_iff a kwargs w : NoDup kwargs.*1 ->
  py_wisard_new a kwargs = Ok w <-> wisard_options kwargs w /\ w_addressSize w = a /\ w_discriminators w = ∅.
Proof.
  intros Hnd. rewrite py_wisard_new_eq, (wloop_iff kwargs (w_init a) w Hnd). unfold wagree, wisard_options. cbn. tauto.
Qed.
Definition k_init (a : Z) (s : f32) (t l : Z) : cluswisard := ClusWisard a s t l true false true false 2 false false false false 1 ∅ cluster_default.
Lemma py_clus_new_eq a s t l kwargs : py_clus_new a s t l kwargs = let* _ := checkConfigInputs s t l in kwargs_loop clus_kwarg kwargs (k_init a s t l).
Proof. unfold py_clus_new, clus_of_options. cbn -[checkConfigInputs kwargs_loop]. destruct (checkConfigInputs s t l); reflexivity. Qed.
Lemma clus_options_iff a s t l kwargs k : NoDup kwargs.*1 ->
  py_clus_new a s t l kwargs = Ok k <->
    clus_options kwargs k /\ k_addressSize k = a /\ k_minScore k = s /\ k_threshold k = t /\ k_limit k = l /\
    k_clusters k = ∅ /\ k_unsupervised k = cluster_default /\ checkConfigInputs s t l = Ok tt.
Proof.
  intros Hnd. rewrite py_clus_new_eq. destruct (checkConfigInputs s t l) as [[]| | |]; cbn [rbind].
  - rewrite (kloop_iff kwargs (k_init a s t l) k Hnd). unfold kagree, clus_options. cbn. tauto.
  - split; [discriminate|]. intros H. decompose [and] H. discriminate.
  - split; [discriminate|]. intros H. decompose [and] H. discriminate.
  - split; [discriminate|]. intros H. decompose [and] H. discriminate.
Qed.
Lemma disc_options_eq dr a e kwargs iz ca base ix mp : NoDup kwargs.*1 ->
  setting PyBool kwargs (lit "ignoreZero") false iz -> setting PyBool kwargs (lit "completeAddressing") true ca ->
  setting PyInt kwargs (lit "base") 2 base -> setting PyInts kwargs (lit "indexes") [] ix -> setting PyIntss kwargs (lit "mapping") [] mp ->
  py_disc_new dr a e kwargs = disc_new dr a e iz ca ix mp base.
Proof.
  intros Hnd H1 H2 H3 H4 H5. unfold py_disc_new.
  assert (E : kwargs_loop disc_kwarg kwargs (DOpts false true 2 [] []) = Ok (DOpts iz ca base ix mp)).
  { apply (dloop_iff kwargs _ _ Hnd). unfold dagree. cbn [o_ignoreZero o_completeAddressing o_base o_indexes o_mapping]. tauto. }
  rewrite E. reflexivity.
Qed.
Lemma wisard_new_run a kwargs : (exists w, py_wisard_new a kwargs = Ok w) \/ py_wisard_new a kwargs = Throw cast_exn.
Proof. rewrite py_wisard_new_eq. apply loop_run, wisard_run. Qed.
Lemma setting_perm {A} (inj : A -> pyval) kwargs kwargs' name d x : kwargs ≡ₚ kwargs' -> setting inj kwargs name d x -> setting inj kwargs' name d x.
Proof. intros Hp [H|[H ->]]; [left; rewrite <- Hp; exact H|right; split; [|reflexivity]]. intros v. rewrite <- Hp. apply H. Qed.
Lemma wisard_options_perm kwargs kwargs' w : kwargs ≡ₚ kwargs' -> wisard_options kwargs w -> wisard_options kwargs' w.
Proof. intros Hp H. unfold wisard_options in *. decompose [and] H. repeat (apply conj); eapply setting_perm; eassumption. Qed.
Lemma wisard_new_order a kwargs kwargs' : NoDup kwargs.*1 -> kwargs ≡ₚ kwargs' -> py_wisard_new a kwargs = py_wisard_new a kwargs'.
Proof.
  intros Hnd Hp. assert (Hnd' : NoDup kwargs'.*1) by (rewrite <- Hp; exact Hnd).
  destruct (wisard_new_run a kwargs) as [[w E]|E], (wisard_new_run a kwargs') as [[w' E']|E']; try congruence.
  - rewrite E. apply wisard_options_iff in E as (H & ? & ?); [|exact Hnd]. apply (wisard_options_perm _ _ _ Hp) in H.
    symmetry. apply wisard_options_iff; [exact Hnd'|tauto].
  - exfalso. apply wisard_options_iff in E as (H & ? & ?); [|exact Hnd]. apply (wisard_options_perm _ _ _ Hp) in H.
    assert (py_wisard_new a kwargs' = Ok w) by (apply wisard_options_iff; [exact Hnd'|tauto]). congruence.
  - exfalso. apply wisard_options_iff in E' as (H & ? & ?); [|exact Hnd']. apply (wisard_options_perm _ _ _ (symmetry Hp)) in H.
    assert (py_wisard_new a kwargs = Ok w') by (apply wisard_options_iff; [exact Hnd|tauto]). congruence.
Qed.
Lemma values_elem kwargs : Forall int_values kwargs.*2 -> Forall (fun kv : str * pyval => int_values kv.2) kwargs.
Proof. rewrite Forall_fmap. auto. Qed.
Ltac py_opt :=
  match goal with
  | Hnd : NoDup _, HF : Forall _ _ |- context [jopt ?get ?d (options_json ?kw) ?name] =>
      match goal with
      | H : setting ?inj kw name d ?x |- _ =>
          rewrite (jopt_setting inj get kw name d x Hnd H);
          [cbn [rbind]
          |let Hin := fresh in intros Hin; apply (proj1 (Forall_forall _ _) HF) in Hin; cbn [snd] in Hin;
           first [apply get_bool_py|apply get_int_py; exact Hin|apply get_ints_py; exact Hin|apply get_intss_py; exact Hin|apply get_mappings_py; exact Hin]
          |discriminate]
      end
  end.
Lemma wisard_new_cpp a kwargs w : NoDup kwargs.*1 -> Forall int_values kwargs.*2 ->
  py_wisard_new a kwargs = Ok w -> wisard_of_options a (options_json kwargs) = Ok w.
Proof.
  intros Hnd HF H. apply values_elem in HF. apply (wisard_options_iff a kwargs w Hnd) in H as (H & Ha & Hd). unfold wisard_options in H. decompose [and] H. clear H.
  unfold wisard_of_options. repeat py_opt. f_equal. destruct w. cbn in *. congruence.
Qed.
Lemma clus_new_cpp a s t l kwargs k : NoDup kwargs.*1 -> Forall int_values kwargs.*2 ->
  py_clus_new a s t l kwargs = Ok k -> clus_of_options a s t l (options_json kwargs) = Ok k.
Proof.
  intros Hnd HF H. apply values_elem in HF. apply (clus_options_iff a s t l kwargs k Hnd) in H as (H & Ha & Hs & Ht & Hl & Hc & Hu & Hck). unfold clus_options in H. decompose [and] H. clear H.
  unfold clus_of_options. repeat py_opt. rewrite Hck. cbn [rbind]. f_equal. destruct k. cbn in *. congruence.
Qed.
Lemma disc_new_cpp dr a e kwargs d : NoDup kwargs.*1 -> Forall int_values kwargs.*2 ->
  py_disc_new dr a e kwargs = Ok d -> disc_of_options dr a e (options_json kwargs) = Ok d.
Proof.
  intros Hnd HF H. apply values_elem in HF. unfold py_disc_new in H.
  destruct (kwargs_loop disc_kwarg kwargs (DOpts false true 2 [] [])) as [o| | |] eqn:E; cbn [rbind] in H; try discriminate.
  apply (dloop_iff kwargs _ _ Hnd) in E. unfold dagree in E. cbn [o_ignoreZero o_completeAddressing o_base o_indexes o_mapping] in E. decompose [and] E. clear E.
  unfold disc_of_options. repeat py_opt. exact H.
Qed.
