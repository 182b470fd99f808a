(** Proofs about the keyword arguments of the Python constructors. *)
From Verif Require Import Prelude Bytes BytesProofs Float32 Json Disc Wisard ClusWisard Options SpecOptions SpecDisc BleachProofs.

Lemma kwarg_skip {S A} name (cast : pyval -> res A) (set : S -> A -> S) k v s : k <> name -> kwarg name cast set (k, v) s = Ok s.
Proof. intros H. unfold kwarg. cbn [fst]. rewrite decide_False by exact H. reflexivity. Qed.
Lemma kwarg_hit {S A} name (cast : pyval -> res A) (set : S -> A -> S) v s : kwarg name cast set (name, v) s = let* a := cast v in Ok (set s a).
Proof. unfold kwarg. cbn [fst snd]. rewrite decide_True by reflexivity. reflexivity. Qed.
Lemma setting_skip {A} (inj : A -> pyval) k v name x : k <> name -> setting inj [(k, v)] name x x.
Proof. intros H. right. split; [|reflexivity]. intros v'. rewrite elem_of_list_singleton. congruence. Qed.
Lemma setting_hit {A} (inj : A -> pyval) name x d : setting inj [(name, inj x)] name d x.
Proof. left. apply elem_of_list_singleton. reflexivity. Qed.
Lemma setting_cons {A} (inj : A -> pyval) kv kwargs name d x1 x :
  setting inj [kv] name d x1 -> setting inj kwargs name x1 x -> setting inj (kv :: kwargs) name d x.
Proof.
  intros H1 [H2|[H2 ->]]; [left; right; exact H2|]. destruct H1 as [H1|[H1 ->]].
  - left. apply elem_of_list_singleton in H1. rewrite <- H1. left.
  - right. split; [|reflexivity]. intros v. rewrite elem_of_cons. intros [E|E]; [|exact (H2 v E)]. apply (H1 v). rewrite E. left.
Qed.
Lemma setting_fun {A} (inj : A -> pyval) kwargs name d x y : (forall a b, inj a = inj b -> a = b) -> NoDup kwargs.*1 ->
  setting inj kwargs name d x -> setting inj kwargs name d y -> x = y.
Proof.
  intros Hinj Hnd [H1|[H1 ->]] [H2|[H2 ->]]; [|exfalso; exact (H2 _ H1)|exfalso; exact (H1 _ H2)|reflexivity].
  apply Hinj. clear Hinj. induction kwargs as [|[k v] kwargs IH]; [inversion H1|]. rewrite fmap_cons in Hnd. apply NoDup_cons in Hnd as [Hk Hnd].
  apply elem_of_cons in H1 as [H1|H1], H2 as [H2|H2]; [congruence|..|exact (IH Hnd H1 H2)].
  - injection H1 as <- <-. exfalso. apply Hk, elem_of_list_fmap. eexists. split; [|exact H2]. reflexivity.
  - injection H2 as <- <-. exfalso. apply Hk, elem_of_list_fmap. eexists. split; [|exact H1]. reflexivity.
Qed.
Lemma setting_typed {A} (inj : A -> pyval) kwargs name d x v : NoDup kwargs.*1 -> setting inj kwargs name d x -> (name, v) ∈ kwargs -> v = inj x.
Proof.
  intros Hnd [H1|[H1 _]] H2; [|exfalso; exact (H1 _ H2)]. induction kwargs as [|[k v'] kwargs IH]; [inversion H1|]. rewrite fmap_cons in Hnd. apply NoDup_cons in Hnd as [Hk Hnd].
  apply elem_of_cons in H1 as [H1|H1], H2 as [H2|H2]; [congruence|..|exact (IH Hnd H1 H2)].
  - injection H1 as <- <-. exfalso. apply Hk, elem_of_list_fmap. eexists. split; [|exact H2]. reflexivity.
  - injection H2 as <- <-. exfalso. apply Hk, elem_of_list_fmap. eexists. split; [|exact H1]. reflexivity.
Qed.
Lemma cast_bool_inv v a : cast_bool v = Ok a -> v = PyBool a. Proof. destruct v; cbn; congruence. Qed.
Lemma cast_int_inv v a : cast_int v = Ok a -> v = PyInt a. Proof. destruct v; cbn; congruence. Qed.
Lemma cast_ints_inv v a : cast_ints v = Ok a -> v = PyInts a. Proof. destruct v; cbn; congruence. Qed.
Lemma cast_intss_inv v a : cast_intss v = Ok a -> v = PyIntss a. Proof. destruct v; cbn; congruence. Qed.
Lemma cast_mappings_inv v a : cast_mappings v = Ok a -> v = PyMappings a. Proof. destruct v; cbn; congruence. Qed.
Lemma loop_cons {S} (body : str * pyval -> S -> res S) kv kwargs s :
  kwargs_loop body (kv :: kwargs) s = let* s1 := body kv s in kwargs_loop body kwargs s1.
Proof.
  unfold kwargs_loop. cbn [foldl rbind]. destruct (body kv s) as [s1| | |]; cbn [rbind]; [reflexivity|..];
  induction kwargs as [|kv' kwargs IH]; cbn [foldl rbind]; auto.
Qed.
Ltac lit_neq := let H := fresh in intros H; vm_compute in H; discriminate H.
Ltac skip_all := repeat (rewrite kwarg_skip by (first [assumption|lit_neq]); cbn [rbind]).
Ltac cast_inv H := first [apply cast_bool_inv in H|apply cast_int_inv in H|apply cast_ints_inv in H|apply cast_intss_inv in H|apply cast_mappings_inv in H].
(** one keyword against a body of [kwarg] steps *)
Ltac hit1 c inv := match goal with |- context [c ?v] => let E := fresh "E" in destruct (c v) eqn:E; cbn [rbind]; [apply inv in E; subst v|discriminate..] end.
Ltac step_all := repeat (first
  [ rewrite kwarg_skip by (first [assumption|lit_neq]); cbn [rbind]
  | rewrite kwarg_hit; first [hit1 cast_bool cast_bool_inv|hit1 cast_int cast_int_inv|hit1 cast_ints cast_ints_inv|hit1 cast_intss cast_intss_inv|hit1 cast_mappings cast_mappings_inv]]).
Definition wagree (kwargs : list (str * pyval)) (w0 w : wisard) : Prop :=
  setting PyBool kwargs (lit "bleachingActivated") (w_bleachingActivated w0) (w_bleachingActivated w) /\
  setting PyBool kwargs (lit "verbose") (w_verbose w0) (w_verbose w) /\
  setting PyBool kwargs (lit "ignoreZero") (w_ignoreZero w0) (w_ignoreZero w) /\
  setting PyBool kwargs (lit "completeAddressing") (w_completeAddressing w0) (w_completeAddressing w) /\
  setting PyMappings kwargs (lit "mapping") (w_mapping w0) (w_mapping w) /\
  setting PyInts kwargs (lit "indexes") (w_indexes w0) (w_indexes w) /\
  setting PyInt kwargs (lit "base") (w_base w0) (w_base w) /\
  setting PyBool kwargs (lit "searchBestConfidence") (w_searchBestConfidence w0) (w_searchBestConfidence w) /\
  setting PyBool kwargs (lit "returnConfidence") (w_returnConfidence w0) (w_returnConfidence w) /\
  setting PyBool kwargs (lit "returnActivationDegree") (w_returnActivationDegree w0) (w_returnActivationDegree w) /\
  setting PyBool kwargs (lit "returnClassesDegrees") (w_returnClassesDegrees w0) (w_returnClassesDegrees w) /\
  setting PyInt kwargs (lit "confidence") (w_confidence w0) (w_confidence w) /\
  w_addressSize w = w_addressSize w0 /\ w_discriminators w = w_discriminators w0.
Definition wtyped (kv : str * pyval) : Prop :=
  (kv.1 = lit "bleachingActivated" -> exists a, kv.2 = PyBool a) /\
  (kv.1 = lit "verbose" -> exists a, kv.2 = PyBool a) /\
  (kv.1 = lit "ignoreZero" -> exists a, kv.2 = PyBool a) /\
  (kv.1 = lit "completeAddressing" -> exists a, kv.2 = PyBool a) /\
  (kv.1 = lit "mapping" -> exists a, kv.2 = PyMappings a) /\
  (kv.1 = lit "indexes" -> exists a, kv.2 = PyInts a) /\
  (kv.1 = lit "base" -> exists a, kv.2 = PyInt a) /\
  (kv.1 = lit "searchBestConfidence" -> exists a, kv.2 = PyBool a) /\
  (kv.1 = lit "returnConfidence" -> exists a, kv.2 = PyBool a) /\
  (kv.1 = lit "returnActivationDegree" -> exists a, kv.2 = PyBool a) /\
  (kv.1 = lit "returnClassesDegrees" -> exists a, kv.2 = PyBool a) /\
  (kv.1 = lit "confidence" -> exists a, kv.2 = PyInt a).
Lemma wstep kv w0 w1 : wisard_kwarg kv w0 = Ok w1 -> wagree [kv] w0 w1.
Proof.
  destruct kv as [key v]. unfold wisard_kwarg.
  assert (Fin : forall P : Prop, P -> P) by auto.
  destruct (decide (key = lit "bleachingActivated")) as [->|?]; [step_all; intros [= <-]; subst; unfold wagree; repeat (apply conj); first [apply setting_hit|apply setting_skip; lit_neq|reflexivity]|].
  destruct (decide (key = lit "verbose")) as [->|?]; [step_all; intros [= <-]; subst; unfold wagree; repeat (apply conj); first [apply setting_hit|apply setting_skip; lit_neq|reflexivity]|].
  destruct (decide (key = lit "ignoreZero")) as [->|?]; [step_all; intros [= <-]; subst; unfold wagree; repeat (apply conj); first [apply setting_hit|apply setting_skip; lit_neq|reflexivity]|].
  destruct (decide (key = lit "completeAddressing")) as [->|?]; [step_all; intros [= <-]; subst; unfold wagree; repeat (apply conj); first [apply setting_hit|apply setting_skip; lit_neq|reflexivity]|].
  destruct (decide (key = lit "mapping")) as [->|?]; [step_all; intros [= <-]; subst; unfold wagree; repeat (apply conj); first [apply setting_hit|apply setting_skip; lit_neq|reflexivity]|].
  destruct (decide (key = lit "indexes")) as [->|?]; [step_all; intros [= <-]; subst; unfold wagree; repeat (apply conj); first [apply setting_hit|apply setting_skip; lit_neq|reflexivity]|].
  destruct (decide (key = lit "base")) as [->|?]; [step_all; intros [= <-]; subst; unfold wagree; repeat (apply conj); first [apply setting_hit|apply setting_skip; lit_neq|reflexivity]|].
  destruct (decide (key = lit "searchBestConfidence")) as [->|?]; [step_all; intros [= <-]; subst; unfold wagree; repeat (apply conj); first [apply setting_hit|apply setting_skip; lit_neq|reflexivity]|].
  destruct (decide (key = lit "returnConfidence")) as [->|?]; [step_all; intros [= <-]; subst; unfold wagree; repeat (apply conj); first [apply setting_hit|apply setting_skip; lit_neq|reflexivity]|].
  destruct (decide (key = lit "returnActivationDegree")) as [->|?]; [step_all; intros [= <-]; subst; unfold wagree; repeat (apply conj); first [apply setting_hit|apply setting_skip; lit_neq|reflexivity]|].
  destruct (decide (key = lit "returnClassesDegrees")) as [->|?]; [step_all; intros [= <-]; subst; unfold wagree; repeat (apply conj); first [apply setting_hit|apply setting_skip; lit_neq|reflexivity]|].
  destruct (decide (key = lit "confidence")) as [->|?]; [step_all; intros [= <-]; subst; unfold wagree; repeat (apply conj); first [apply setting_hit|apply setting_skip; lit_neq|reflexivity]|].
  step_all. intros [= <-]. unfold wagree. repeat (apply conj); first [apply setting_skip; assumption|reflexivity].
Qed.
Lemma wtyped_step kv w0 : wtyped kv -> exists w1, wisard_kwarg kv w0 = Ok w1.
Proof.
  destruct kv as [key v]. unfold wtyped. cbn [fst snd]. intros HT. decompose [and] HT. clear HT. unfold wisard_kwarg.
  destruct (decide (key = lit "bleachingActivated")) as [->|?]; [match goal with H : lit "bleachingActivated" = lit "bleachingActivated" -> _ |- _ => destruct (H eq_refl) as [? ->] end; repeat (rewrite ?kwarg_hit; cbn [rbind cast_bool cast_int cast_ints cast_mappings]; rewrite ?kwarg_skip by lit_neq; cbn [rbind]); eauto|].
  destruct (decide (key = lit "verbose")) as [->|?]; [match goal with H : lit "verbose" = lit "verbose" -> _ |- _ => destruct (H eq_refl) as [? ->] end; repeat (rewrite ?kwarg_hit; cbn [rbind cast_bool cast_int cast_ints cast_mappings]; rewrite ?kwarg_skip by lit_neq; cbn [rbind]); eauto|].
  destruct (decide (key = lit "ignoreZero")) as [->|?]; [match goal with H : lit "ignoreZero" = lit "ignoreZero" -> _ |- _ => destruct (H eq_refl) as [? ->] end; repeat (rewrite ?kwarg_hit; cbn [rbind cast_bool cast_int cast_ints cast_mappings]; rewrite ?kwarg_skip by lit_neq; cbn [rbind]); eauto|].
  destruct (decide (key = lit "completeAddressing")) as [->|?]; [match goal with H : lit "completeAddressing" = lit "completeAddressing" -> _ |- _ => destruct (H eq_refl) as [? ->] end; repeat (rewrite ?kwarg_hit; cbn [rbind cast_bool cast_int cast_ints cast_mappings]; rewrite ?kwarg_skip by lit_neq; cbn [rbind]); eauto|].
  destruct (decide (key = lit "mapping")) as [->|?]; [match goal with H : lit "mapping" = lit "mapping" -> _ |- _ => destruct (H eq_refl) as [? ->] end; repeat (rewrite ?kwarg_hit; cbn [rbind cast_bool cast_int cast_ints cast_mappings]; rewrite ?kwarg_skip by lit_neq; cbn [rbind]); eauto|].
  destruct (decide (key = lit "indexes")) as [->|?]; [match goal with H : lit "indexes" = lit "indexes" -> _ |- _ => destruct (H eq_refl) as [? ->] end; repeat (rewrite ?kwarg_hit; cbn [rbind cast_bool cast_int cast_ints cast_mappings]; rewrite ?kwarg_skip by lit_neq; cbn [rbind]); eauto|].
  destruct (decide (key = lit "base")) as [->|?]; [match goal with H : lit "base" = lit "base" -> _ |- _ => destruct (H eq_refl) as [? ->] end; repeat (rewrite ?kwarg_hit; cbn [rbind cast_bool cast_int cast_ints cast_mappings]; rewrite ?kwarg_skip by lit_neq; cbn [rbind]); eauto|].
  destruct (decide (key = lit "searchBestConfidence")) as [->|?]; [match goal with H : lit "searchBestConfidence" = lit "searchBestConfidence" -> _ |- _ => destruct (H eq_refl) as [? ->] end; repeat (rewrite ?kwarg_hit; cbn [rbind cast_bool cast_int cast_ints cast_mappings]; rewrite ?kwarg_skip by lit_neq; cbn [rbind]); eauto|].
  destruct (decide (key = lit "returnConfidence")) as [->|?]; [match goal with H : lit "returnConfidence" = lit "returnConfidence" -> _ |- _ => destruct (H eq_refl) as [? ->] end; repeat (rewrite ?kwarg_hit; cbn [rbind cast_bool cast_int cast_ints cast_mappings]; rewrite ?kwarg_skip by lit_neq; cbn [rbind]); eauto|].
  destruct (decide (key = lit "returnActivationDegree")) as [->|?]; [match goal with H : lit "returnActivationDegree" = lit "returnActivationDegree" -> _ |- _ => destruct (H eq_refl) as [? ->] end; repeat (rewrite ?kwarg_hit; cbn [rbind cast_bool cast_int cast_ints cast_mappings]; rewrite ?kwarg_skip by lit_neq; cbn [rbind]); eauto|].
  destruct (decide (key = lit "returnClassesDegrees")) as [->|?]; [match goal with H : lit "returnClassesDegrees" = lit "returnClassesDegrees" -> _ |- _ => destruct (H eq_refl) as [? ->] end; repeat (rewrite ?kwarg_hit; cbn [rbind cast_bool cast_int cast_ints cast_mappings]; rewrite ?kwarg_skip by lit_neq; cbn [rbind]); eauto|].
  destruct (decide (key = lit "confidence")) as [->|?]; [match goal with H : lit "confidence" = lit "confidence" -> _ |- _ => destruct (H eq_refl) as [? ->] end; repeat (rewrite ?kwarg_hit; cbn [rbind cast_bool cast_int cast_ints cast_mappings]; rewrite ?kwarg_skip by lit_neq; cbn [rbind]); eauto|].
  step_all. eauto.
Qed.
Lemma wloop_agree kwargs : forall w0 w1, kwargs_loop wisard_kwarg kwargs w0 = Ok w1 -> wagree kwargs w0 w1.
Proof.
  induction kwargs as [|kv kwargs IH]; intros w0 w1.
  - intros [= <-]. unfold wagree. repeat (apply conj); first [right; split; [intros ?; apply not_elem_of_nil|reflexivity]|reflexivity].
  - rewrite loop_cons. destruct (wisard_kwarg kv w0) as [w2| | |] eqn:E; cbn [rbind]; try discriminate. intros H. apply IH in H. apply wstep in E.
    unfold wagree in *. decompose [and] H. decompose [and] E. repeat (apply conj); first [eapply setting_cons; eassumption|congruence].
Qed.
Lemma wloop_total kwargs : Forall wtyped kwargs -> forall w0, exists w1, kwargs_loop wisard_kwarg kwargs w0 = Ok w1.
Proof.
  induction 1 as [|kv kwargs Hk HF IH]; intros w0; [eexists; reflexivity|]. rewrite loop_cons. destruct (wtyped_step kv w0 Hk) as [w1 ->]. apply IH.
Qed.
Lemma wagree_fun kwargs w0 w1 w2 : NoDup kwargs.*1 -> wagree kwargs w0 w1 -> wagree kwargs w0 w2 -> w1 = w2.
Proof.
  intros Hnd H1 H2. unfold wagree in *. decompose [and] H1. decompose [and] H2. clear H1 H2. destruct w1, w2. cbn in *.
  f_equal; first [eapply setting_fun; [|exact Hnd|eassumption|eassumption]; congruence|congruence].
Qed.
Lemma wagree_typed kwargs w0 w1 : NoDup kwargs.*1 -> wagree kwargs w0 w1 -> Forall wtyped kwargs.
Proof.
  intros Hnd H. unfold wagree in H. decompose [and] H. clear H. apply Forall_forall. intros [key v] Hk. unfold wtyped. cbn [fst snd].
  repeat (apply conj); intros ->; eexists; (match goal with |- v = ?inj _ => refine (setting_typed inj _ _ _ _ _ Hnd _ Hk) end; eassumption).
Qed.
Lemma wloop_iff kwargs w0 w : NoDup kwargs.*1 -> kwargs_loop wisard_kwarg kwargs w0 = Ok w <-> wagree kwargs w0 w.
Proof.
  intros Hnd. split; [apply wloop_agree|]. intros H. destruct (wloop_total kwargs (wagree_typed _ _ _ Hnd H) w0) as [w1 E].
  rewrite E. f_equal. eapply wagree_fun; [exact Hnd|apply wloop_agree, E|exact H].
Qed.
Definition kagree (kwargs : list (str * pyval)) (k0 k : cluswisard) : Prop :=
  setting PyBool kwargs (lit "bleachingActivated") (k_bleachingActivated k0) (k_bleachingActivated k) /\
  setting PyBool kwargs (lit "verbose") (k_verbose k0) (k_verbose k) /\
  setting PyBool kwargs (lit "ignoreZero") (k_ignoreZero k0) (k_ignoreZero k) /\
  setting PyBool kwargs (lit "completeAddressing") (k_completeAddressing k0) (k_completeAddressing k) /\
  setting PyInt kwargs (lit "base") (k_base k0) (k_base k) /\
  setting PyBool kwargs (lit "searchBestConfidence") (k_searchBestConfidence k0) (k_searchBestConfidence k) /\
  setting PyBool kwargs (lit "returnConfidence") (k_returnConfidence k0) (k_returnConfidence k) /\
  setting PyBool kwargs (lit "returnActivationDegree") (k_returnActivationDegree k0) (k_returnActivationDegree k) /\
  setting PyBool kwargs (lit "returnClassesDegrees") (k_returnClassesDegrees k0) (k_returnClassesDegrees k) /\
  setting PyInt kwargs (lit "confidence") (k_confidence k0) (k_confidence k) /\
  k_addressSize k = k_addressSize k0 /\ k_minScore k = k_minScore k0 /\ k_threshold k = k_threshold k0 /\ k_limit k = k_limit k0 /\ k_clusters k = k_clusters k0 /\ k_unsupervised k = k_unsupervised k0.
Definition ktyped (kv : str * pyval) : Prop :=
  (kv.1 = lit "bleachingActivated" -> exists a, kv.2 = PyBool a) /\
  (kv.1 = lit "verbose" -> exists a, kv.2 = PyBool a) /\
  (kv.1 = lit "ignoreZero" -> exists a, kv.2 = PyBool a) /\
  (kv.1 = lit "completeAddressing" -> exists a, kv.2 = PyBool a) /\
  (kv.1 = lit "base" -> exists a, kv.2 = PyInt a) /\
  (kv.1 = lit "searchBestConfidence" -> exists a, kv.2 = PyBool a) /\
  (kv.1 = lit "returnConfidence" -> exists a, kv.2 = PyBool a) /\
  (kv.1 = lit "returnActivationDegree" -> exists a, kv.2 = PyBool a) /\
  (kv.1 = lit "returnClassesDegrees" -> exists a, kv.2 = PyBool a) /\
  (kv.1 = lit "confidence" -> exists a, kv.2 = PyInt a).
Lemma kstep kv k0 k1 : clus_kwarg kv k0 = Ok k1 -> kagree [kv] k0 k1.
Proof.
  destruct kv as [key v]. unfold clus_kwarg.
  assert (Fin : forall P : Prop, P -> P) by auto.
  destruct (decide (key = lit "bleachingActivated")) as [->|?]; [step_all; intros [= <-]; subst; unfold kagree; repeat (apply conj); first [apply setting_hit|apply setting_skip; lit_neq|reflexivity]|].
  destruct (decide (key = lit "verbose")) as [->|?]; [step_all; intros [= <-]; subst; unfold kagree; repeat (apply conj); first [apply setting_hit|apply setting_skip; lit_neq|reflexivity]|].
  destruct (decide (key = lit "ignoreZero")) as [->|?]; [step_all; intros [= <-]; subst; unfold kagree; repeat (apply conj); first [apply setting_hit|apply setting_skip; lit_neq|reflexivity]|].
  destruct (decide (key = lit "completeAddressing")) as [->|?]; [step_all; intros [= <-]; subst; unfold kagree; repeat (apply conj); first [apply setting_hit|apply setting_skip; lit_neq|reflexivity]|].
  destruct (decide (key = lit "base")) as [->|?]; [step_all; intros [= <-]; subst; unfold kagree; repeat (apply conj); first [apply setting_hit|apply setting_skip; lit_neq|reflexivity]|].
  destruct (decide (key = lit "searchBestConfidence")) as [->|?]; [step_all; intros [= <-]; subst; unfold kagree; repeat (apply conj); first [apply setting_hit|apply setting_skip; lit_neq|reflexivity]|].
  destruct (decide (key = lit "returnConfidence")) as [->|?]; [step_all; intros [= <-]; subst; unfold kagree; repeat (apply conj); first [apply setting_hit|apply setting_skip; lit_neq|reflexivity]|].
  destruct (decide (key = lit "returnActivationDegree")) as [->|?]; [step_all; intros [= <-]; subst; unfold kagree; repeat (apply conj); first [apply setting_hit|apply setting_skip; lit_neq|reflexivity]|].
  destruct (decide (key = lit "returnClassesDegrees")) as [->|?]; [step_all; intros [= <-]; subst; unfold kagree; repeat (apply conj); first [apply setting_hit|apply setting_skip; lit_neq|reflexivity]|].
  destruct (decide (key = lit "confidence")) as [->|?]; [step_all; intros [= <-]; subst; unfold kagree; repeat (apply conj); first [apply setting_hit|apply setting_skip; lit_neq|reflexivity]|].
  step_all. intros [= <-]. unfold kagree. repeat (apply conj); first [apply setting_skip; assumption|reflexivity].
Qed.
Lemma ktyped_step kv k0 : ktyped kv -> exists k1, clus_kwarg kv k0 = Ok k1.
Proof.
  destruct kv as [key v]. unfold ktyped. cbn [fst snd]. intros HT. decompose [and] HT. clear HT. unfold clus_kwarg.
  destruct (decide (key = lit "bleachingActivated")) as [->|?]; [match goal with H : lit "bleachingActivated" = lit "bleachingActivated" -> _ |- _ => destruct (H eq_refl) as [? ->] end; repeat (rewrite ?kwarg_hit; cbn [rbind cast_bool cast_int cast_ints cast_mappings]; rewrite ?kwarg_skip by lit_neq; cbn [rbind]); eauto|].
  destruct (decide (key = lit "verbose")) as [->|?]; [match goal with H : lit "verbose" = lit "verbose" -> _ |- _ => destruct (H eq_refl) as [? ->] end; repeat (rewrite ?kwarg_hit; cbn [rbind cast_bool cast_int cast_ints cast_mappings]; rewrite ?kwarg_skip by lit_neq; cbn [rbind]); eauto|].
  destruct (decide (key = lit "ignoreZero")) as [->|?]; [match goal with H : lit "ignoreZero" = lit "ignoreZero" -> _ |- _ => destruct (H eq_refl) as [? ->] end; repeat (rewrite ?kwarg_hit; cbn [rbind cast_bool cast_int cast_ints cast_mappings]; rewrite ?kwarg_skip by lit_neq; cbn [rbind]); eauto|].
  destruct (decide (key = lit "completeAddressing")) as [->|?]; [match goal with H : lit "completeAddressing" = lit "completeAddressing" -> _ |- _ => destruct (H eq_refl) as [? ->] end; repeat (rewrite ?kwarg_hit; cbn [rbind cast_bool cast_int cast_ints cast_mappings]; rewrite ?kwarg_skip by lit_neq; cbn [rbind]); eauto|].
  destruct (decide (key = lit "base")) as [->|?]; [match goal with H : lit "base" = lit "base" -> _ |- _ => destruct (H eq_refl) as [? ->] end; repeat (rewrite ?kwarg_hit; cbn [rbind cast_bool cast_int cast_ints cast_mappings]; rewrite ?kwarg_skip by lit_neq; cbn [rbind]); eauto|].
  destruct (decide (key = lit "searchBestConfidence")) as [->|?]; [match goal with H : lit "searchBestConfidence" = lit "searchBestConfidence" -> _ |- _ => destruct (H eq_refl) as [? ->] end; repeat (rewrite ?kwarg_hit; cbn [rbind cast_bool cast_int cast_ints cast_mappings]; rewrite ?kwarg_skip by lit_neq; cbn [rbind]); eauto|].
  destruct (decide (key = lit "returnConfidence")) as [->|?]; [match goal with H : lit "returnConfidence" = lit "returnConfidence" -> _ |- _ => destruct (H eq_refl) as [? ->] end; repeat (rewrite ?kwarg_hit; cbn [rbind cast_bool cast_int cast_ints cast_mappings]; rewrite ?kwarg_skip by lit_neq; cbn [rbind]); eauto|].
  destruct (decide (key = lit "returnActivationDegree")) as [->|?]; [match goal with H : lit "returnActivationDegree" = lit "returnActivationDegree" -> _ |- _ => destruct (H eq_refl) as [? ->] end; repeat (rewrite ?kwarg_hit; cbn [rbind cast_bool cast_int cast_ints cast_mappings]; rewrite ?kwarg_skip by lit_neq; cbn [rbind]); eauto|].
  destruct (decide (key = lit "returnClassesDegrees")) as [->|?]; [match goal with H : lit "returnClassesDegrees" = lit "returnClassesDegrees" -> _ |- _ => destruct (H eq_refl) as [? ->] end; repeat (rewrite ?kwarg_hit; cbn [rbind cast_bool cast_int cast_ints cast_mappings]; rewrite ?kwarg_skip by lit_neq; cbn [rbind]); eauto|].
  destruct (decide (key = lit "confidence")) as [->|?]; [match goal with H : lit "confidence" = lit "confidence" -> _ |- _ => destruct (H eq_refl) as [? ->] end; repeat (rewrite ?kwarg_hit; cbn [rbind cast_bool cast_int cast_ints cast_mappings]; rewrite ?kwarg_skip by lit_neq; cbn [rbind]); eauto|].
  step_all. eauto.
Qed.
Lemma kloop_agree kwargs : forall k0 k1, kwargs_loop clus_kwarg kwargs k0 = Ok k1 -> kagree kwargs k0 k1.
Proof.
  induction kwargs as [|kv kwargs IH]; intros k0 k1.
  - intros [= <-]. unfold kagree. repeat (apply conj); first [right; split; [intros ?; apply not_elem_of_nil|reflexivity]|reflexivity].
  - rewrite loop_cons. destruct (clus_kwarg kv k0) as [k2| | |] eqn:E; cbn [rbind]; try discriminate. intros H. apply IH in H. apply kstep in E.
    unfold kagree in *. decompose [and] H. decompose [and] E. repeat (apply conj); first [eapply setting_cons; eassumption|congruence].
Qed.
Lemma kloop_total kwargs : Forall ktyped kwargs -> forall k0, exists k1, kwargs_loop clus_kwarg kwargs k0 = Ok k1.
Proof.
  induction 1 as [|kv kwargs Hk HF IH]; intros k0; [eexists; reflexivity|]. rewrite loop_cons. destruct (ktyped_step kv k0 Hk) as [k1 ->]. apply IH.
Qed.
Lemma kagree_fun kwargs k0 k1 k2 : NoDup kwargs.*1 -> kagree kwargs k0 k1 -> kagree kwargs k0 k2 -> k1 = k2.
Proof.
  intros Hnd H1 H2. unfold kagree in *. decompose [and] H1. decompose [and] H2. clear H1 H2. destruct k1, k2. cbn in *.
  f_equal; first [eapply setting_fun; [|exact Hnd|eassumption|eassumption]; congruence|congruence].
Qed.
Lemma kagree_typed kwargs k0 k1 : NoDup kwargs.*1 -> kagree kwargs k0 k1 -> Forall ktyped kwargs.
Proof.
  intros Hnd H. unfold kagree in H. decompose [and] H. clear H. apply Forall_forall. intros [key v] Hk. unfold ktyped. cbn [fst snd].
  repeat (apply conj); intros ->; eexists; (match goal with |- v = ?inj _ => refine (setting_typed inj _ _ _ _ _ Hnd _ Hk) end; eassumption).
Qed.
Lemma kloop_iff kwargs k0 k : NoDup kwargs.*1 -> kwargs_loop clus_kwarg kwargs k0 = Ok k <-> kagree kwargs k0 k.
Proof.
  intros Hnd. split; [apply kloop_agree|]. intros H. destruct (kloop_total kwargs (kagree_typed _ _ _ Hnd H) k0) as [k1 E].
  rewrite E. f_equal. eapply kagree_fun; [exact Hnd|apply kloop_agree, E|exact H].
Qed.
