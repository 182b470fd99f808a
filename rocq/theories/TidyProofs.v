(** Parsed objects have distinct names (for C133, C134). *)
From Verif Require Import Prelude Bytes Float32 Json JsonText Fs Disc Wisard Cluster ClusWisard TextApi SpecJsonOptions.
From Verif Require Import OptionsJson JsonOptionsProofs.

Inductive tidy : json -> Prop :=
| tidy_null : tidy JNull
| tidy_bool b : tidy (JBool b)
| tidy_int z : tidy (JInt z)
| tidy_float f : tidy (JFloat f)
| tidy_str s : tidy (JStr s)
| tidy_arr js : Forall tidy js -> tidy (JArr js)
| tidy_obj l : NoDup l.*1 -> Forall (fun kv => tidy kv.2) l -> tidy (JObj l).

Lemma assoc_none (l : list (str * json)) k : assoc k l = None <-> k ∉ l.*1.
Proof.
  induction l as [|[k' v'] l IH]; cbn [assoc]; [split; [intros _ H; inversion H|reflexivity]|]. rewrite fmap_cons, not_elem_of_cons. cbn [fst]. case_decide as H.
  - split; [discriminate|]. intros [Hn _]. congruence.
  - rewrite IH. split; [intros; split; [congruence|assumption]|intros [_ ?]; assumption].
Qed.
Lemma jinsert_in k v (l : list (str * json)) x : x ∈ jinsert k v l -> x = (k, v) \/ x ∈ l.
Proof.
  induction l as [|[k' v'] l IH]; cbn [jinsert]; [intros H; apply elem_of_list_singleton in H; auto|].
  destruct (decide (k = k')); [intros H; apply elem_of_cons in H as [->|H]; [auto|right; right; exact H]|].
  destruct (str_leb k k'); intros H; apply elem_of_cons in H as [->|H]; auto; [right; left|]. destruct (IH H) as [->|?]; [auto|right; right; assumption].
Qed.
Lemma jinsert_new k v (l : list (str * json)) : k ∉ l.*1 -> NoDup l.*1 -> NoDup (jinsert k v l).*1.
Proof.
  induction l as [|[k' v'] l IH]; cbn [jinsert]; intros Hk Hn; [constructor; [apply not_elem_of_nil|constructor]|].
  rewrite fmap_cons in Hk, Hn. cbn [fst] in *. apply not_elem_of_cons in Hk as [Hk Hk']. assert (Hn' := Hn). apply NoDup_cons in Hn' as [Hn1 Hn2].
  destruct (decide (k = k')); [contradiction|]. destruct (str_leb k k').
  - rewrite fmap_cons. cbn [fst]. constructor; [apply not_elem_of_cons; auto|exact Hn].
  - rewrite fmap_cons. cbn [fst]. constructor; [|apply IH; assumption]. intros H. apply elem_of_list_fmap in H as ([k1 v1] & E & H). cbn [fst] in E. subst k1. apply jinsert_in in H as [E|H]; [injection E as E _; congruence|].
    apply Hn1. apply elem_of_list_fmap. exists (k', v1). auto.
Qed.
Lemma tidy_emplace k v l : tidy v -> tidy (JObj l) -> tidy (JObj (jemplace k v l)).
Proof.
  intros Hv Hl. unfold jemplace. destruct (assoc k l) eqn:E; [exact Hl|]. inversion Hl as [| | | | | |? Hn Ht]; subst. apply assoc_none in E. constructor; [apply jinsert_new; assumption|].
  apply Forall_forall. intros x Hx. apply jinsert_in in Hx as [->|Hx]; [exact Hv|]. rewrite Forall_forall in Ht. apply Ht, Hx.
Qed.
Lemma parse_tidy T : forall fuel,
  (forall t s v s', parse_value T fuel t s = Ok (v, s') -> tidy v) /\
  (forall acc t s v s', tidy (JObj acc) -> parse_members T fuel acc t s = Ok (v, s') -> tidy v) /\
  (forall acc t s v s', Forall tidy acc -> parse_elements T fuel acc t s = Ok (v, s') -> tidy v).
Proof.
  induction fuel as [|fuel (IHv & IHm & IHe)]; [repeat split; intros; discriminate|]. split; [|split].
  - intros t s v s' H. destruct t as [| | | | | | | | |x| | | |]; cbn [parse_value] in H; try discriminate; try (injection H as <- <-; constructor; fail).
    + destruct (scan T s) as [t1 s1]. assert (Hn : t1 = TEndArray \/ parse_elements T fuel [] t1 s1 = Ok (v, s')) by (destruct t1; auto).
      destruct Hn as [->|Hn]; [injection H as <- <-; constructor; constructor|]. apply IHe in Hn; [exact Hn|constructor].
    + destruct (scan T s) as [t1 s1]. assert (Hn : t1 = TEndObject \/ parse_members T fuel [] t1 s1 = Ok (v, s')) by (destruct t1; auto).
      destruct Hn as [->|Hn]; [injection H as <- <-; constructor; constructor|]. apply IHm in Hn; [exact Hn|constructor; constructor].
    + destruct (f32_finite f); [|discriminate]. injection H as <- <-. constructor.
  - intros acc t s v s' Ha H. cbn [parse_members] in H. destruct t as [| | | | | | | | |k| | | |]; try discriminate.
    destruct (scan T s) as [t1 s1]. destruct t1; try discriminate. destruct (scan T s1) as [t2 s2].
    destruct (parse_value T fuel t2 s2) as [[w s3]| | |] eqn:Ev; cbn [rbind] in H; try discriminate. apply IHv in Ev.
    pose proof (tidy_emplace k w acc Ev Ha) as Ha'. destruct (scan T s3) as [t3 s4]. destruct t3; try discriminate; [injection H as <- <-; exact Ha'|].
    destruct (scan T s4) as [t4 s5]. exact (IHm _ _ _ _ _ Ha' H).
  - intros acc t s v s' Ha H. cbn [parse_elements] in H.
    destruct (parse_value T fuel t s) as [[w s3]| | |] eqn:Ev; cbn [rbind] in H; try discriminate. apply IHv in Ev.
    assert (Ha' : Forall tidy (acc ++ [w])) by (apply Forall_app; auto).
    destruct (scan T s3) as [t3 s4]. destruct t3; try discriminate; [injection H as <- <-; constructor; exact Ha'|].
    destruct (scan T s4) as [t4 s5]. exact (IHe _ _ _ _ _ Ha' H).
Qed.
Theorem json_parse_tidy T text j : json_parse T text = Ok j -> tidy j.
Proof.
  intros H. unfold json_parse in H. destruct (scan T (skip_bom text)) as [t s].
  destruct (parse_value T (2 * length text + 2) t s) as [[v s1]| | |] eqn:Ev; cbn [rbind] in H; try discriminate.
  destruct (scan T s1) as [t1 s2]. destruct t1; try discriminate. injection H as <-. exact (proj1 (parse_tidy T _) _ _ _ _ Ev).
Qed.

(** ** Loading *)
Lemma float_reader : reader jget_float float_read.
Proof. intros v x. split; [destruct v; try discriminate; intros [= <-]; constructor|intros []; reflexivity]. Qed.
Lemma member_reads {A} (get : json -> res A) read (l : list (str * json)) name x : NoDup l.*1 -> reader get read ->
  (let* v := jfield (JObj l) name in get v) = Ok x <-> member_read read l name x.
Proof. intros Hn Hr. rewrite bind_ok. unfold member_read. setoid_rewrite (field_has l name _ Hn). split; intros (v & H1 & H2); exists v; (split; [exact H1|]); apply Hr, H2. Qed.
Lemma not_object a c : (forall l, c <> JObj l) -> forall w, wisard_of_options a c = Ok w -> c = JNull.
Proof. destruct c; intros H w; try reflexivity; try discriminate. exfalso. eapply H. reflexivity. Qed.

Theorem wisard_text_read T f text w : wisard_of_text T f text = Ok w ->
  exists l, json_parse T text = Ok (JObj l) /\ wisard_read l w /\ member_read int_read l (lit "addressSize") (w_addressSize w).
Proof.
  unfold wisard_of_text. rewrite bind_ok. intros (j & Ej & H). exists match j with JObj l => l | _ => [] end. pose proof (json_parse_tidy _ _ _ Ej) as Ht. unfold wisard_of_json in H.
  apply bind_ok in H as (w0 & Ew0 & H). destruct j as [|b|z|fl|s|js|l]; try discriminate.
  inversion Ht as [| | | | | |? Hnd Hv]; subst. assert (Hm : forall ms, (lit "mapping", JObj ms) ∈ l -> NoDup ms.*1).
  { intros ms Hin. rewrite Forall_forall in Hv. specialize (Hv _ Hin). cbn [snd] in Hv. inversion Hv. assumption. }
  apply (wisard_options_read l Hnd 0 w0 Hm) in Ew0 as (Hr & _ & _). split; [exact Ej|].
  apply bind_ok in H as (v & Ev & H). apply bind_ok in H as (a & Ea & H). apply bind_ok in H as (cl & _ & H). apply bind_ok in H as (ms & _ & H). apply bind_ok in H as (ds & _ & [= <-]).
  split; [exact Hr|]. cbn [w_addressSize]. apply (member_reads jget_int); [exact Hnd|apply int_reader|]. apply bind_ok. eauto.
Qed.
Theorem clus_text_read T f text k : clus_of_text T f text = Ok k ->
  exists l, json_parse T text = Ok (JObj l) /\ clus_read l k /\ member_read int_read l (lit "addressSize") (k_addressSize k) /\
    member_read float_read l (lit "minScore") (k_minScore k) /\ member_read int_read l (lit "threshold") (k_threshold k) /\
    member_read int_read l (lit "discriminatorsLimit") (k_limit k).
Proof.
  unfold clus_of_text. rewrite bind_ok. intros (j & Ej & H). exists match j with JObj l => l | _ => [] end. pose proof (json_parse_tidy _ _ _ Ej) as Ht. unfold clus_of_json in H.
  apply bind_ok in H as (k0 & Ek0 & H). destruct j as [|b|z|fl|s|js|l]; try discriminate.
  inversion Ht as [| | | | | |? Hnd Hv]; subst. apply (clus_options_read l Hnd) in Ek0 as (Hr & _). split; [exact Ej|].
  apply bind_ok in H as (v1 & Ev1 & H). apply bind_ok in H as (a & Ea & H). apply bind_ok in H as (v2 & Ev2 & H). apply bind_ok in H as (s & Es & H).
  apply bind_ok in H as (v3 & Ev3 & H). apply bind_ok in H as (t & Et & H). apply bind_ok in H as (v4 & Ev4 & H). apply bind_ok in H as (n & En & H).
  apply bind_ok in H as (cl & _ & H). apply bind_ok in H as (ms & _ & H). apply bind_ok in H as (uc & _ & H). apply bind_ok in H as (ds & _ & [= <-]).
  split; [exact Hr|]. cbn [k_addressSize k_minScore k_threshold k_limit]. split; [|split; [|split]].
  - apply (member_reads jget_int); [exact Hnd|apply int_reader|]. apply bind_ok. eauto.
  - apply (member_reads jget_float); [exact Hnd|apply float_reader|]. apply bind_ok. eauto.
  - apply (member_reads jget_int); [exact Hnd|apply int_reader|]. apply bind_ok. eauto.
  - apply (member_reads jget_int); [exact Hnd|apply int_reader|]. apply bind_ok. eauto.
Qed.
