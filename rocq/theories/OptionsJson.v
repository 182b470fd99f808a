(** The Python options read back from their JSON form (for C102). *)
From Verif Require Import Prelude Bytes BytesProofs Float32 Bleaching Json Disc Wisard ClusWisard Options SpecOptions SpecDisc BleachProofs OptionsProofs.
From Verif Require JsonProofs.

Lemma assoc_jinsert k k' v l : assoc k (jinsert k' v l) = if decide (k' = k) then Some v else assoc k l.
Proof.
  induction l as [|[q w] l IH]; cbn [jinsert assoc]; [reflexivity|].
  destruct (decide (k' = q)) as [->|N].
  - cbn [assoc]. destruct (decide (q = k)); reflexivity.
  - destruct (str_leb k' q); cbn [assoc]; [reflexivity|]. rewrite IH. destruct (decide (q = k)), (decide (k' = k)); congruence.
Qed.
Lemma assoc_jobject l k v : NoDup l.*1 -> (k, v) ∈ l -> jfield (jobject l) k = Ok v.
Proof.
  intros Hnd Hin. unfold jobject, jfield. f_equal.
  assert (G : forall l, NoDup l.*1 -> (k, v) ∈ l -> assoc k (foldr (fun kv acc => jinsert kv.1 kv.2 acc) [] l) = Some v).
  { clear. induction l as [|[q w] l IH]; intros Hnd Hin; [inversion Hin|]. rewrite fmap_cons in Hnd. apply NoDup_cons in Hnd as [Hq Hnd].
    cbn [foldr fst snd]. rewrite assoc_jinsert. apply elem_of_cons in Hin as [[= <- <-]|Hin]; [rewrite decide_True by reflexivity; reflexivity|].
    destruct (decide (q = k)) as [->|]; [|exact (IH Hnd Hin)]. exfalso. apply Hq, elem_of_list_fmap. exists (k, v). split; [reflexivity|exact Hin]. }
  rewrite G; [reflexivity|..].
  - rewrite <- (Permutation_rev l). exact Hnd.
  - rewrite <- (Permutation_rev l). exact Hin.
Qed.
Lemma assoc_jobject_none l k : (forall v, (k, v) ∉ l) -> jfield (jobject l) k = Ok JNull.
Proof.
  intros H. unfold jobject, jfield. f_equal.
  assert (G : forall l, (forall v, (k, v) ∉ l) -> assoc k (foldr (fun kv acc => jinsert kv.1 kv.2 acc) [] l) = None).
  { clear. induction l as [|[q w] l IH]; intros H; [reflexivity|]. cbn [foldr fst snd]. rewrite assoc_jinsert.
    destruct (decide (q = k)) as [->|]; [exfalso; apply (H w); left|]. apply IH. intros v Hv. apply (H v). right. exact Hv. }
  rewrite G; [reflexivity|]. intros v. rewrite <- (Permutation_rev l). apply H.
Qed.
Lemma jopt_setting {A} (inj : A -> pyval) get kwargs name dflt x :
  NoDup kwargs.*1 -> setting inj kwargs name dflt x -> ((name, inj x) ∈ kwargs -> get (pyjson (inj x)) = Ok x) -> pyjson (inj x) <> JNull ->
  jopt get dflt (options_json kwargs) name = Ok x.
Proof.
  intros Hnd [H|[H ->]] Hget Hnn; unfold jopt, options_json.
  - rewrite (assoc_jobject _ name (pyjson (inj x))); [cbn [rbind]|..].
    + specialize (Hget H). destruct (pyjson (inj x)); congruence.
    + rewrite <- list_fmap_compose. exact Hnd.
    + apply elem_of_list_fmap. exists (name, inj x). split; [reflexivity|exact H].
  - rewrite assoc_jobject_none; [reflexivity|]. intros v Hv. apply elem_of_list_fmap in Hv as ([k w] & [= -> ->] & Hin). exact (H w Hin).
Qed.
Lemma get_bool_py b : jget_bool (pyjson (PyBool b)) = Ok b. Proof. reflexivity. Qed.
Lemma get_int_py z : int_values (PyInt z) -> jget_int (pyjson (PyInt z)) = Ok z.
Proof. intros H. cbn in *. rewrite s32_id by exact H. reflexivity. Qed.
Lemma get_ints_py l : int_values (PyInts l) -> jget_ints (pyjson (PyInts l)) = Ok l.
Proof. intros H. apply JsonProofs.jget_ints_jints. exact H. Qed.
Lemma get_intss_py l : int_values (PyIntss l) -> jget_intss (pyjson (PyIntss l)) = Ok l.
Proof. intros H. apply JsonProofs.jget_intss_jintss. exact H. Qed.
Lemma get_mappings_py m : int_values (PyMappings m) -> jget_mappings (pyjson (PyMappings m)) = Ok m.
Proof.
  intros H. cbn [pyjson jget_mappings]. 
  assert (E : rmapM (fun kv => let* m := jget_intss kv.2 in Ok (kv.1, m)) ((fun kv => (kv.1, jintss kv.2)) <$> sorted_items m) = Ok (sorted_items m)).
  { assert (HF : Forall (fun kv : str * list (list Z) => Forall (Forall is_int) kv.2) (sorted_items m)).
    { apply Forall_forall. intros [k l] Hk. apply sorted_items_elem in Hk. exact (H k l Hk). }
    induction HF as [|[k l] its Hl _ IH]; [reflexivity|]. rewrite fmap_cons. cbn [rmapM fst snd] in *. rewrite (JsonProofs.jget_intss_jintss l Hl). cbn [rbind].
    rewrite IH. reflexivity. }
  rewrite E. cbn [rbind]. rewrite sorted_items_map. reflexivity.
Qed.

Ltac py_setting Hnd HF :=
  match goal with
  | H : setting ?inj ?kw ?name ?d ?x |- jopt _ _ _ _ = Ok _ =>
      apply (jopt_setting inj _ kw name d x Hnd H); [|discriminate];
      let Hin := fresh in intros Hin; rewrite Forall_forall in HF; apply HF in Hin;
      first [apply get_bool_py|apply get_int_py; exact Hin|apply get_ints_py; exact Hin|apply get_intss_py; exact Hin|apply get_mappings_py; exact Hin]
  end.

(** The discriminator constructor: its keyword loop with typed, distinct options. *)
Definition dagree (kwargs : list (str * pyval)) (o0 o : dopts) : Prop :=
  setting PyBool kwargs (lit "ignoreZero") (o_ignoreZero o0) (o_ignoreZero o) /\
  setting PyBool kwargs (lit "completeAddressing") (o_completeAddressing o0) (o_completeAddressing o) /\
  setting PyInt kwargs (lit "base") (o_base o0) (o_base o) /\
  setting PyInts kwargs (lit "indexes") (o_indexes o0) (o_indexes o) /\
  setting PyIntss kwargs (lit "mapping") (o_mapping o0) (o_mapping o).
Definition dtyped (kv : str * pyval) : Prop :=
  (kv.1 = lit "ignoreZero" -> exists a, kv.2 = PyBool a) /\
  (kv.1 = lit "completeAddressing" -> exists a, kv.2 = PyBool a) /\
  (kv.1 = lit "base" -> exists a, kv.2 = PyInt a) /\
  (kv.1 = lit "indexes" -> exists a, kv.2 = PyInts a) /\
  (kv.1 = lit "mapping" -> exists a, kv.2 = PyIntss a).
Lemma dstep kv k0 k1 : disc_kwarg kv k0 = Ok k1 -> dagree [kv] k0 k1.
Proof.
  destruct kv as [key v]. unfold disc_kwarg.
  destruct (decide (key = lit "ignoreZero")) as [->|?]; [step_all; intros [= <-]; subst; unfold dagree; repeat (apply conj); first [apply setting_hit|apply setting_skip; lit_neq|reflexivity]|].
  destruct (decide (key = lit "completeAddressing")) as [->|?]; [step_all; intros [= <-]; subst; unfold dagree; repeat (apply conj); first [apply setting_hit|apply setting_skip; lit_neq|reflexivity]|].
  destruct (decide (key = lit "base")) as [->|?]; [step_all; intros [= <-]; subst; unfold dagree; repeat (apply conj); first [apply setting_hit|apply setting_skip; lit_neq|reflexivity]|].
  destruct (decide (key = lit "indexes")) as [->|?]; [step_all; intros [= <-]; subst; unfold dagree; repeat (apply conj); first [apply setting_hit|apply setting_skip; lit_neq|reflexivity]|].
  destruct (decide (key = lit "mapping")) as [->|?]; [step_all; intros [= <-]; subst; unfold dagree; repeat (apply conj); first [apply setting_hit|apply setting_skip; lit_neq|reflexivity]|].
  step_all. intros [= <-]. unfold dagree. repeat (apply conj); first [apply setting_skip; assumption|reflexivity].
Qed.
Lemma dtyped_step kv k0 : dtyped kv -> exists k1, disc_kwarg kv k0 = Ok k1.
Proof.
  destruct kv as [key v]. unfold dtyped. cbn [fst snd]. intros HT. decompose [and] HT. clear HT. unfold disc_kwarg.
  destruct (decide (key = lit "ignoreZero")) as [->|?]; [match goal with H : lit "ignoreZero" = lit "ignoreZero" -> _ |- _ => destruct (H eq_refl) as [? ->] end; repeat (rewrite ?kwarg_hit; cbn [rbind cast_bool cast_int cast_ints cast_intss cast_mappings]; rewrite ?kwarg_skip by lit_neq; cbn [rbind]); eauto|].
  destruct (decide (key = lit "completeAddressing")) as [->|?]; [match goal with H : lit "completeAddressing" = lit "completeAddressing" -> _ |- _ => destruct (H eq_refl) as [? ->] end; repeat (rewrite ?kwarg_hit; cbn [rbind cast_bool cast_int cast_ints cast_intss cast_mappings]; rewrite ?kwarg_skip by lit_neq; cbn [rbind]); eauto|].
  destruct (decide (key = lit "base")) as [->|?]; [match goal with H : lit "base" = lit "base" -> _ |- _ => destruct (H eq_refl) as [? ->] end; repeat (rewrite ?kwarg_hit; cbn [rbind cast_bool cast_int cast_ints cast_intss cast_mappings]; rewrite ?kwarg_skip by lit_neq; cbn [rbind]); eauto|].
  destruct (decide (key = lit "indexes")) as [->|?]; [match goal with H : lit "indexes" = lit "indexes" -> _ |- _ => destruct (H eq_refl) as [? ->] end; repeat (rewrite ?kwarg_hit; cbn [rbind cast_bool cast_int cast_ints cast_intss cast_mappings]; rewrite ?kwarg_skip by lit_neq; cbn [rbind]); eauto|].
  destruct (decide (key = lit "mapping")) as [->|?]; [match goal with H : lit "mapping" = lit "mapping" -> _ |- _ => destruct (H eq_refl) as [? ->] end; repeat (rewrite ?kwarg_hit; cbn [rbind cast_bool cast_int cast_ints cast_intss cast_mappings]; rewrite ?kwarg_skip by lit_neq; cbn [rbind]); eauto|].
  step_all. eauto.
Qed.
Lemma dloop_agree kwargs : forall k0 k1, kwargs_loop disc_kwarg kwargs k0 = Ok k1 -> dagree kwargs k0 k1.
Proof.
  induction kwargs as [|kv kwargs IH]; intros k0 k1.
  - intros [= <-]. unfold dagree. repeat (apply conj); first [right; split; [intros ?; apply not_elem_of_nil|reflexivity]|reflexivity].
  - rewrite loop_cons. destruct (disc_kwarg kv k0) as [k2| | |] eqn:E; cbn [rbind]; try discriminate. intros H. apply IH in H. apply dstep in E.
    unfold dagree in *. decompose [and] H. decompose [and] E. repeat (apply conj); first [eapply setting_cons; eassumption|congruence].
Qed.
Lemma dloop_total kwargs : Forall dtyped kwargs -> forall k0, exists k1, kwargs_loop disc_kwarg kwargs k0 = Ok k1.
Proof.
  induction 1 as [|kv kwargs Hk HF IH]; intros k0; [eexists; reflexivity|]. rewrite loop_cons. destruct (dtyped_step kv k0 Hk) as [k1 ->]. apply IH.
Qed.
Lemma dagree_fun kwargs k0 k1 k2 : NoDup kwargs.*1 -> dagree kwargs k0 k1 -> dagree kwargs k0 k2 -> k1 = k2.
Proof.
  intros Hnd H1 H2. unfold dagree in *. decompose [and] H1. decompose [and] H2. clear H1 H2. destruct k1, k2. cbn in *.
  f_equal; first [eapply setting_fun; [|exact Hnd|eassumption|eassumption]; congruence|congruence].
Qed.
Lemma dagree_typed kwargs k0 k1 : NoDup kwargs.*1 -> dagree kwargs k0 k1 -> Forall dtyped kwargs.
Proof.
  intros Hnd H. unfold dagree in H. decompose [and] H. clear H. apply Forall_forall. intros [key v] Hk. unfold dtyped. cbn [fst snd].
  repeat (apply conj); intros ->; eexists; (match goal with |- v = ?inj _ => refine (setting_typed inj _ _ _ _ _ Hnd _ Hk) end; eassumption).
Qed.
Lemma dloop_iff kwargs k0 k : NoDup kwargs.*1 -> kwargs_loop disc_kwarg kwargs k0 = Ok k <-> dagree kwargs k0 k.
Proof.
  intros Hnd. split; [apply dloop_agree|]. intros H. destruct (dloop_total kwargs (dagree_typed _ _ _ Hnd H) k0) as [k1 E].
  rewrite E. f_equal. eapply dagree_fun; [exact Hnd|apply dloop_agree, E|exact H].
Qed.
(** A keyword loop either succeeds or throws the cast error. *)
Definition well_run {S} (body : str * pyval -> S -> res S) : Prop := forall kv s, (exists s', body kv s = Ok s') \/ body kv s = Throw cast_exn.
Lemma kwarg_run {S A} name (cast : pyval -> res A) (set : S -> A -> S) kv s :
  (forall v, (exists a, cast v = Ok a) \/ cast v = Throw cast_exn) ->
  (exists s', kwarg name cast set kv s = Ok s') \/ kwarg name cast set kv s = Throw cast_exn.
Proof. intros H. unfold kwarg. destruct (decide _); [|left; eauto]. destruct (H kv.2) as [[a ->]| ->]; cbn [rbind]; eauto. Qed.
Lemma cast_bool_run v : (exists a, cast_bool v = Ok a) \/ cast_bool v = Throw cast_exn. Proof. destruct v; cbn; eauto. Qed.
Lemma cast_int_run v : (exists a, cast_int v = Ok a) \/ cast_int v = Throw cast_exn. Proof. destruct v; cbn; eauto. Qed.
Lemma cast_ints_run v : (exists a, cast_ints v = Ok a) \/ cast_ints v = Throw cast_exn. Proof. destruct v; cbn; eauto. Qed.
Lemma cast_intss_run v : (exists a, cast_intss v = Ok a) \/ cast_intss v = Throw cast_exn. Proof. destruct v; cbn; eauto. Qed.
Lemma cast_mappings_run v : (exists a, cast_mappings v = Ok a) \/ cast_mappings v = Throw cast_exn. Proof. destruct v; cbn; eauto. Qed.
Lemma loop_run {S} (body : str * pyval -> S -> res S) kwargs : well_run body -> forall s,
  (exists s', kwargs_loop body kwargs s = Ok s') \/ kwargs_loop body kwargs s = Throw cast_exn.
Proof.
  intros Hb. induction kwargs as [|kv kwargs IH]; intros s; [left; eexists; reflexivity|]. rewrite loop_cons.
  destruct (Hb kv s) as [[s' ->]| ->]; cbn [rbind]; [apply IH|right; reflexivity].
Qed.
Ltac run_body := repeat match goal with |- (exists _, rbind (kwarg ?n ?c ?f ?kv ?s) _ = _) \/ _ =>
  let s' := fresh "s" in let E := fresh "E" in
  destruct (kwarg_run n c f kv s ltac:(first [apply cast_bool_run|apply cast_int_run|apply cast_ints_run|apply cast_intss_run|apply cast_mappings_run])) as [[s' E]|E];
  rewrite E; cbn [rbind]; [|right; reflexivity] end; left; eexists; reflexivity.
Lemma wisard_run : well_run wisard_kwarg. Proof. intros kv s. unfold wisard_kwarg. run_body. Qed.
Lemma clus_run : well_run clus_kwarg. Proof. intros kv s. unfold clus_kwarg. run_body. Qed.
Lemma disc_run : well_run disc_kwarg. Proof. intros kv s. unfold disc_kwarg. run_body. Qed.
