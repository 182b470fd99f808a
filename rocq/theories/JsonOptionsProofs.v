(** JSON options (for C133, C134). *)
From Verif Require Import Prelude Bytes Float32 Bleaching Json Disc Wisard Cluster ClusWisard SpecDisc SpecJsonOptions.
From Verif Require Import BytesProofs WisardProofs.

Lemma bind_ok {A B} (r : res A) (k : A -> res B) b : rbind r k = Ok b <-> exists a, r = Ok a /\ k a = Ok b.
Proof. destruct r; cbn [rbind]; split; [eauto|intros (? & [= ->] & ?); assumption|discriminate|intros (? & ? & _); discriminate|discriminate|intros (? & ? & _); discriminate|discriminate|intros (? & ? & _); discriminate]. Qed.
Lemma assoc_has (l : list (str * json)) name v : NoDup l.*1 -> has l name v <-> match assoc name l with Some v => v | None => JNull end = v.
Proof.
  intros Hnd. assert (G : forall v, (name, v) ∈ l <-> assoc name l = Some v).
  { clear v. intros v. induction l as [|[k u] l IH]; cbn [assoc]; [split; [inversion 1|discriminate]|]. rewrite fmap_cons in Hnd. apply NoDup_cons in Hnd as [Hk Hnd]. specialize (IH Hnd). rewrite elem_of_cons.
    case_decide as Hn; [subst k|].
    - split; [intros [[= ->]|Hin]; [reflexivity|]|intros [= ->]; left; reflexivity]. exfalso. apply Hk. apply elem_of_list_fmap. exists (name, v). auto.
    - rewrite <- IH. split; [intros [[= E _]|?]; [congruence|assumption]|auto]. }
  unfold has. rewrite G. destruct (assoc name l) as [u|] eqn:E; split.
  - intros [[= ->]|[_ H]]; [reflexivity|]. exfalso. apply (H u), G. reflexivity.
  - intros ->. left. reflexivity.
  - intros [H|[-> _]]; [discriminate|reflexivity].
  - intros <-. right. split; [reflexivity|]. intros v' H. apply G in H. discriminate.
Qed.
Lemma field_has (l : list (str * json)) name v : NoDup l.*1 -> jfield (JObj l) name = Ok v <-> has l name v.
Proof. intros H. rewrite (assoc_has l name v H). cbn [jfield]. split; [intros [= <-]; reflexivity|intros ->; reflexivity]. Qed.
Definition reader {A} (get : json -> res A) (read : json -> A -> Prop) : Prop := forall v x, get v = Ok x <-> read v x.
Lemma opt_read {A} (get : json -> res A) read (l : list (str * json)) name dflt x : NoDup l.*1 -> (forall v x, has l name v -> get v = Ok x <-> read v x) -> ~ read JNull x ->
  jopt get dflt (JObj l) name = Ok x <-> option_read read l name dflt x.
Proof.
  intros Hnd Hr Hn. unfold jopt, option_read. rewrite bind_ok. setoid_rewrite (field_has l name _ Hnd). split.
  - intros (v & Hv & E). exists v. split; [exact Hv|]. destruct v; try (right; apply Hr; [exact Hv|exact E]). injection E as <-. auto.
  - intros (v & Hv & [[-> ->]|E]); exists v || exists JNull; (split; [exact Hv|]); [reflexivity|]. destruct v; try (apply Hr; [exact Hv|exact E]). contradiction.
Qed.
Lemma bool_reader : reader jget_bool bool_read.
Proof. intros v x. split; [destruct v; try discriminate; intros [= ->]; constructor|intros []; reflexivity]. Qed.
Lemma s32_reads z i : s32 z = i <-> INT_MIN <= i <= INT_MAX /\ (z - i) mod 2 ^ 32 = 0.
Proof.
  change (2 ^ 32) with 4294967296. unfold s32, INT_MIN, INT_MAX, W32. split.
  - intros <-. pose proof (Z.mod_pos_bound (z + 2147483648) 4294967296). split; [lia|].
    replace (z - ((z + 2147483648) mod 4294967296 - 2147483648)) with (z + 2147483648 - (z + 2147483648) mod 4294967296) by lia.
    rewrite Zminus_mod_idemp_r, Z.sub_diag. reflexivity.
  - intros [Hi Hm]. apply Z.mod_divide in Hm as [q Hq]; [|lia]. replace (z + 2147483648) with (i + 2147483648 + q * 4294967296) by lia.
    rewrite Z.mod_add by lia. rewrite Z.mod_small by lia. lia.
Qed.
Lemma int_reader : reader jget_int int_read.
Proof.
  intros v x. split.
  - destruct v as [|b|z|f|s|js|ms]; cbn [jget_int]; try discriminate.
    + destruct b; intros [= <-]; constructor.
    + intros [= E]. apply s32_reads in E as [H1 H2]. constructor; assumption.
    + destruct (f32_trunc f) as [z|] eqn:Ef; [|discriminate]. destruct (in_int z) eqn:Ei; [|discriminate]. intros [= <-]. unfold in_int in Ei. constructor; [exact Ef|lia].
  - intros [z i H1 H2| | |f i Ef Hi]; cbn [jget_int].
    + f_equal. apply s32_reads. auto.
    + reflexivity.
    + reflexivity.
    + rewrite Ef. assert (in_int i = true) as -> by (unfold in_int; lia). reflexivity.
Qed.
Lemma rmapM_iff {A B} (f : A -> res B) : forall l ys, rmapM f l = Ok ys <-> Forall2 (fun x y => f x = Ok y) l ys.
Proof.
  induction l as [|x l IH]; intros ys; cbn [rmapM].
  - split; [intros [= <-]; constructor|inversion 1; reflexivity].
  - rewrite bind_ok. setoid_rewrite bind_ok. split.
    + intros (y & Hy & ys' & H & [= <-]). constructor; [exact Hy|]. apply IH, H.
    + inversion 1 as [|? y ? ys' Hy H']; subst. exists y. split; [exact Hy|]. exists ys'. split; [apply IH, H'|reflexivity].
Qed.
Lemma ints_reader : reader jget_ints ints_read.
Proof.
  intros v x. split.
  - destruct v; try discriminate. intros E. apply rmapM_iff in E. constructor. eapply Forall2_impl; [exact E|]. intros a b H. apply int_reader, H.
  - intros [js zs H]. apply rmapM_iff. eapply Forall2_impl; [exact H|]. intros a b Hab. apply int_reader, Hab.
Qed.
Lemma intss_reader : reader jget_intss intss_read.
Proof.
  intros v x. split.
  - destruct v; try discriminate. intros E. apply rmapM_iff in E. constructor. eapply Forall2_impl; [exact E|]. intros a b H. apply ints_reader, H.
  - intros [js zs H]. apply rmapM_iff. eapply Forall2_impl; [exact H|]. intros a b Hab. apply ints_reader, Hab.
Qed.

Lemma mappings_reader (ms : list (str * json)) x : NoDup ms.*1 -> jget_mappings (JObj ms) = Ok x <-> mappings_read (JObj ms) x.
Proof.
  intros Hnd. cbn [jget_mappings]. rewrite bind_ok. split.
  - intros (kvs & E & [= <-]). apply rmapM_iff in E.
    assert (E2 : Forall2 (fun a b => a.1 = b.1 /\ intss_read a.2 b.2) ms kvs).
    { eapply Forall2_impl; [exact E|]. intros [k v] kv H. cbn [fst snd] in *. apply bind_ok in H as (zss & H & [= <-]). split; [reflexivity|]. apply intss_reader, H. }
    assert (Hk : kvs.*1 = ms.*1). { clear - E2. induction E2 as [|a b la lb [H _] _ IH]; [reflexivity|]. rewrite !fmap_cons, IH, H. reflexivity. }
    constructor.
    + intros name zss Hl. apply elem_of_list_to_map_2 in Hl. apply elem_of_list_lookup in Hl as [i Hi]. destruct (Forall2_lookup_r _ _ _ _ _ E2 Hi) as ([k v] & Hm & Hkk & Hr).
      cbn [fst snd] in *. subst k. exists v. split; [eapply elem_of_list_lookup_2; exact Hm|exact Hr].
    + intros name v Hin. apply elem_of_list_lookup in Hin as [i Hi]. destruct (Forall2_lookup_l _ _ _ _ _ E2 Hi) as ([k zss] & Hm & Hkk & Hr). cbn [fst snd] in *. subst k.
      exists zss. split; [|exact Hr]. apply elem_of_list_to_map_1; [rewrite Hk; exact Hnd|]. eapply elem_of_list_lookup_2; exact Hm.
  - inversion 1 as [? ? H1 H2 EQ EM]; subst.
    assert (G : forall ms', (forall kv, kv ∈ ms' -> kv ∈ ms) -> exists kvs, rmapM (fun kv : str * json => let* m := jget_intss kv.2 in Ok (kv.1, m)) ms' = Ok kvs /\ kvs.*1 = ms'.*1 /\ Forall (fun kv => x !! kv.1 = Some kv.2) kvs).
    { induction ms' as [|[k v] ms' IH]; intros Hs; [exists []; split; [reflexivity|split; [reflexivity|constructor]]|].
      destruct IH as (kvs & E & Ek & Ef); [intros kv Hkv; apply Hs; right; exact Hkv|]. destruct (H2 k v (Hs _ ltac:(left))) as (zss & Hx & Hr). apply intss_reader in Hr.
      exists ((k, zss) :: kvs). cbn [rmapM fst snd]. rewrite Hr. cbn [rbind]. rewrite E. cbn [rbind]. split; [reflexivity|]. split; [rewrite !fmap_cons, Ek; reflexivity|]. constructor; [exact Hx|exact Ef]. }
    destruct (G ms (fun _ h => h)) as (kvs & E & Ek & Ef). exists kvs. split; [exact E|]. f_equal. apply map_eq. intros name. apply option_eq. intros zss. rewrite Forall_forall in Ef. split.
    + intros Hl. apply elem_of_list_to_map_2 in Hl. apply (Ef _ Hl).
    + intros Hl. destruct (H1 _ _ Hl) as (v & Hin & _). assert (Hk : name ∈ kvs.*1). { rewrite Ek. apply elem_of_list_fmap. exists (name, v). auto. }
      apply elem_of_list_fmap in Hk as ([n z] & En & Hin'). cbn [fst] in En. subst n. specialize (Ef _ Hin'). cbn [fst snd] in Ef. assert (z = zss) as -> by congruence.
      apply elem_of_list_to_map_1; [rewrite Ek; exact Hnd|exact Hin'].
Qed.
Lemma mappings_no j x : (forall ms, j <> JObj ms) -> jget_mappings j = Ok x <-> mappings_read j x.
Proof. intros H. split; [destruct j; try discriminate; exfalso; eapply H; reflexivity|]. inversion 1; subst. exfalso. eapply H. reflexivity. Qed.

Section Options.
  Local Opaque jopt.
  Context (l : list (str * json)) (Hnd : NoDup l.*1).
  Lemma opt_bool name dflt x : jopt jget_bool dflt (JObj l) name = Ok x <-> option_read bool_read l name dflt x.
  Proof. apply opt_read; [exact Hnd|intros v y _; apply bool_reader|intros H; inversion H]. Qed.
  Lemma opt_int name dflt x : jopt jget_int dflt (JObj l) name = Ok x <-> option_read int_read l name dflt x.
  Proof. apply opt_read; [exact Hnd|intros v y _; apply int_reader|intros H; inversion H]. Qed.
  Lemma opt_ints name dflt x : jopt jget_ints dflt (JObj l) name = Ok x <-> option_read ints_read l name dflt x.
  Proof. apply opt_read; [exact Hnd|intros v y _; apply ints_reader|intros H; inversion H]. Qed.
  Lemma opt_mappings name dflt x : (forall ms, (name, JObj ms) ∈ l -> NoDup ms.*1) -> jopt jget_mappings dflt (JObj l) name = Ok x <-> option_read mappings_read l name dflt x.
  Proof.
    intros H. apply opt_read; [exact Hnd| |intros H'; inversion H'].
    intros v y Hv. destruct v as [|b|z|f|s|js|ms]; try (apply mappings_no; discriminate). apply mappings_reader, H. destruct Hv as [Hv|[Hv _]]; [exact Hv|discriminate].
  Qed.
  Lemma wisard_options_read a w : (forall ms, (lit "mapping", JObj ms) ∈ l -> NoDup ms.*1) ->
    wisard_of_options a (JObj l) = Ok w <-> wisard_read l w /\ w_addressSize w = a /\ w_discriminators w = ∅.
  Proof.
    intros Hm. unfold wisard_of_options, wisard_read. repeat setoid_rewrite bind_ok.
    repeat setoid_rewrite opt_bool. repeat setoid_rewrite opt_int. split.
    - intros (x1 & H1 & x2 & H2 & x3 & H3 & x4 & H4 & x5 & H5 & x6 & H6 & x7 & H7 & x8 & H8 & x9 & H9 & x10 & H10 & x11 & H11 & x12 & H12 & [= <-]). cbn. apply (opt_mappings _ _ _ Hm) in H5. apply opt_ints in H6. auto 20.
    - intros ((H1 & H2 & H3 & H4 & H5 & H6 & H7 & H8 & H9 & H10 & H11 & H12) & Ha & Hd).
      exists (w_bleachingActivated w); split; [exact H1|]. exists (w_verbose w); split; [exact H2|]. exists (w_ignoreZero w); split; [exact H3|]. exists (w_completeAddressing w); split; [exact H4|].
      exists (w_mapping w); split; [apply (opt_mappings _ _ _ Hm), H5|]. exists (w_indexes w); split; [apply opt_ints, H6|]. exists (w_base w); split; [exact H7|]. exists (w_confidence w); split; [exact H8|].
      exists (w_searchBestConfidence w); split; [exact H9|]. exists (w_returnConfidence w); split; [exact H10|]. exists (w_returnActivationDegree w); split; [exact H11|]. exists (w_returnClassesDegrees w); split; [exact H12|].
      destruct w; cbn in *; subst. reflexivity.
  Qed.
  Lemma valid_config_ok s t n : checkConfigInputs s t n = Ok tt <-> valid_config s t n.
  Proof.
    unfold checkConfigInputs, valid_config. destruct (f32_ltb s f32_zero); cbn [orb]; [split; [discriminate|intros (H & _); discriminate]|].
    destruct (f32_ltb f32_one s); [split; [discriminate|intros (_ & H & _); discriminate]|].
    destruct (Z.ltb_spec t 1); [split; [discriminate|intros (_ & _ & ? & _); lia]|].
    destruct (Z.ltb_spec n 1); [split; [discriminate|intros (_ & _ & _ & ?); lia]|].
    split; [auto|reflexivity].
  Qed.
  Lemma clus_options_read a s t n k :
    clus_of_options a s t n (JObj l) = Ok k <-> clus_read l k /\ k_addressSize k = a /\ k_minScore k = s /\ k_threshold k = t /\ k_limit k = n /\
      k_clusters k = ∅ /\ k_unsupervised k = cluster_default /\ valid_config s t n.
  Proof.
    unfold clus_of_options, clus_read. repeat setoid_rewrite bind_ok.
    repeat setoid_rewrite opt_bool. repeat setoid_rewrite opt_int. split.
    - intros (x1 & H1 & x2 & H2 & x3 & H3 & x4 & H4 & x7 & H7 & x8 & H8 & x9 & H9 & x10 & H10 & x11 & H11 & x12 & H12 & [] & Hv & [= <-]). cbn. apply valid_config_ok in Hv. auto 20.
    - intros ((H1 & H2 & H3 & H4 & H7 & H8 & H9 & H10 & H11 & H12) & Ha & Hs & Ht & Hn & Hc & Hu & Hv).
      exists (k_bleachingActivated k); split; [exact H1|]. exists (k_verbose k); split; [exact H2|]. exists (k_ignoreZero k); split; [exact H3|]. exists (k_completeAddressing k); split; [exact H4|].
      exists (k_base k); split; [exact H7|]. exists (k_confidence k); split; [exact H8|].
      exists (k_searchBestConfidence k); split; [exact H9|]. exists (k_returnConfidence k); split; [exact H10|]. exists (k_returnActivationDegree k); split; [exact H11|]. exists (k_returnClassesDegrees k); split; [exact H12|].
      exists tt. split; [apply valid_config_ok, Hv|]. destruct k; cbn in *; subst. reflexivity.
  Qed.
End Options.

(** ** Failures *)
Definition mild {A} (r : res A) : Prop := (exists x, r = Ok x) \/ r = Throw EJsonType \/ r = UB UBCast.
Lemma mild_ok {A} (x : A) : mild (Ok x). Proof. left. eauto. Qed.
Lemma mild_type {A} : mild (@Throw A EJsonType). Proof. right. left. reflexivity. Qed.
Lemma mild_cast {A} : mild (@UB A UBCast). Proof. right. right. reflexivity. Qed.
Lemma mild_bind {A B} (r : res A) (k : A -> res B) : mild r -> (forall x, mild (k x)) -> mild (rbind r k).
Proof. intros [[x ->]|[->| ->]] H; [apply H|apply mild_type|apply mild_cast]. Qed.
Lemma mild_map {A B} (f : A -> res B) l : (forall x, mild (f x)) -> mild (rmapM f l).
Proof. intros H. induction l as [|x l IH]; cbn [rmapM]; [apply mild_ok|]. apply mild_bind; [apply H|]. intros y. apply mild_bind; [exact IH|]. intros ys. apply mild_ok. Qed.
Lemma mild_jopt {A} (get : json -> res A) d o k : (forall v, mild (get v)) -> mild (jopt get d o k).
Proof. intros H. unfold jopt. apply mild_bind; [destruct o; cbn; first [apply mild_ok|apply mild_type]|]. intros v. specialize (H v). destruct v; try exact H. apply mild_ok. Qed.
Lemma mild_bool v : mild (jget_bool v). Proof. destruct v; first [apply mild_ok|apply mild_type]. Qed.
Lemma mild_int v : mild (jget_int v).
Proof. destruct v as [|b|z|fl|s|js|l]; cbn [jget_int]; try first [apply mild_ok|apply mild_type]. destruct (f32_trunc fl) as [z|]; [|apply mild_cast]. destruct (in_int z); [apply mild_ok|apply mild_cast]. Qed.
Lemma mild_ints v : mild (jget_ints v). Proof. destruct v; try apply mild_type. apply mild_map, mild_int. Qed.
Lemma mild_intss v : mild (jget_intss v). Proof. destruct v; try apply mild_type. apply mild_map, mild_ints. Qed.
Lemma mild_mappings v : mild (jget_mappings v).
Proof. destruct v; try apply mild_type. cbn [jget_mappings]. apply mild_bind; [|intros; apply mild_ok]. apply mild_map. intros kv. apply mild_bind; [apply mild_intss|intros; apply mild_ok]. Qed.
Lemma wisard_options_outcome a c : mild (wisard_of_options a c).
Proof.
  unfold wisard_of_options. repeat (apply mild_bind; [apply mild_jopt; first [apply mild_bool|apply mild_int|apply mild_ints|apply mild_mappings]|intros ?]). apply mild_ok.
Qed.
