(** Values that survive dump/parse, and normal forms of the JSON objects the package writes. *)
From Verif Require Import Prelude Bytes Base64 Utils BinInput Float32 Ram Json Fs RamData Disc CtorFacts.

Definition text_ok (j : json) : Prop := retext j = Ok j.

Lemma text_ok_arr l : Forall text_ok l -> text_ok (JArr l).
Proof.
  unfold text_ok. intros H. cbn [retext].
  assert ((fix go l := match l with
                       | [] => Ok []
                       | x :: xs => let* y := retext x in let* ys := go xs in Ok (y :: ys)
                       end) l = Ok l) as ->; [|reflexivity].
  induction H as [|x l Hx H IH]; [reflexivity|]. rewrite Hx. cbn [rbind]. rewrite IH. reflexivity.
Qed.
Lemma text_ok_obj l : Forall (fun kv => utf8_ok kv.1 = true /\ text_ok kv.2) l -> text_ok (JObj l).
Proof.
  unfold text_ok. intros H. cbn [retext].
  assert ((fix go l := match l with
                       | [] => Ok []
                       | (k, x) :: xs =>
                           if utf8_ok k then
                             let* y := retext x in let* ys := go xs in Ok ((k, y) :: ys)
                           else Throw EJsonType
                       end) l = Ok l) as ->; [|reflexivity].
  induction H as [|[k x] l [Hk Hx] H IH]; [reflexivity|]. cbn [fst snd] in *. rewrite Hk, Hx. cbn [rbind]. rewrite IH. reflexivity.
Qed.
(** Conversely. *)
Lemma text_ok_obj_inv l j : retext (JObj l) = Ok j -> Forall (fun kv => utf8_ok kv.1 = true) l.
Proof.
  cbn [retext]. revert j. induction l as [|[k x] l IH]; intros j H; [constructor|].
  constructor.
  - cbn. destruct (utf8_ok k); [reflexivity|discriminate].
  - destruct (utf8_ok k); [|discriminate]. destruct (retext x); cbn [rbind] in H; try discriminate.
    set (g := (fix go (l : list (list ascii * json)) := _)) in *.
    destruct (g l) as [l0| | |] eqn:E; cbn [rbind] in H; try discriminate.
    apply (IH (JObj l0)). reflexivity.
Qed.

Lemma text_ok_int z : text_ok (JInt z). Proof. reflexivity. Qed.
Lemma text_ok_bool b : text_ok (JBool b). Proof. reflexivity. Qed.
Lemma text_ok_ints l : text_ok (jints l).
Proof. apply text_ok_arr, Forall_fmap, Forall_true. intros x. apply text_ok_int. Qed.
Lemma text_ok_intss l : text_ok (jintss l).
Proof. apply text_ok_arr, Forall_fmap, Forall_true. intros x. apply text_ok_ints. Qed.
Lemma text_ok_str s : utf8_ok s = true -> text_ok (JStr s).
Proof. intros H. unfold text_ok. cbn. rewrite H. reflexivity. Qed.

Lemma text_ok_version : text_ok (JStr version). Proof. vm_compute. reflexivity. Qed.

(** ASCII strings are UTF-8. *)
Lemma utf8_ascii s : Forall (fun c => byte c < 128) s -> utf8_ok s = true.
Proof.
  unfold utf8_ok. intros H. assert (foldl utf8_step 0 s = 0) as ->; [|reflexivity].
  induction H as [|c s Hc H IH]; [reflexivity|]. cbn [foldl].
  assert (utf8_step 0 c = 0) as ->; [|exact IH].
  unfold utf8_step, utf8_type. destruct (Z.ltb_spec (byte c) 128); [reflexivity|lia].
Qed.

Ltac text_ok_members :=
  apply text_ok_obj; repeat (apply Forall_cons; split; [split; [vm_compute; reflexivity|cbn [snd]]|]); [..|apply Forall_nil; exact I].

Lemma disc_config_nf d all : disc_config d all = Ok (JObj (
  (if all then [(lit "count", JInt (d_count d))] else []) ++
  [(lit "entrySize", JInt (d_entrySize d)); (lit "mapping", jintss (disc_mapping d))])).
Proof. destruct all; reflexivity. Qed.

Definition jsonConfig_value (d : disc) : json := JObj (
  match d_rams d with
  | [] => [(lit "entrySize", JInt (d_entrySize d)); (lit "mapping", jintss (disc_mapping d)); (lit "version", JStr version)]
  | r :: _ => [(lit "base", JInt (r_base r)); (lit "entrySize", JInt (d_entrySize d));
               (lit "ignoreZero", JBool (r_ignoreZero r)); (lit "mapping", jintss (disc_mapping d)); (lit "version", JStr version)]
  end).
Lemma disc_jsonConfig_nf d : disc_jsonConfig d = Ok (jsonConfig_value d).
Proof.
  unfold disc_jsonConfig, jsonConfig_value. rewrite disc_config_nf. cbn [rbind app]. unfold merge_ram_config.
  pose proof (text_ok_intss (disc_mapping d)) as Hm. revert Hm. generalize (jintss (disc_mapping d)) as m. intros m Hm.
  destruct (d_rams d) as [|r rs].
  - match goal with |- _ = Ok ?j => transitivity (retext j); [reflexivity|] end.
    text_ok_members; auto using text_ok_int, text_ok_bool, text_ok_version, text_ok_str.
  - match goal with |- _ = Ok ?j => transitivity (retext j); [reflexivity|] end.
    text_ok_members; auto using text_ok_int, text_ok_bool, text_ok_version, text_ok_str.
Qed.

Definition json_value (d : disc) (data : list ascii) : json := JObj (
  match d_rams d with
  | [] => [(lit "count", JInt (d_count d)); (lit "data", JStr data); (lit "entrySize", JInt (d_entrySize d));
           (lit "mapping", jintss (disc_mapping d)); (lit "version", JStr version)]
  | r :: _ => [(lit "base", JInt (r_base r)); (lit "count", JInt (d_count d)); (lit "data", JStr data);
               (lit "entrySize", JInt (d_entrySize d));
               (lit "ignoreZero", JBool (r_ignoreZero r)); (lit "mapping", jintss (disc_mapping d)); (lit "version", JStr version)]
  end).
Lemma disc_json_nf iter rnd f d huge path : utf8_ok (fst (getRAMsData iter rnd f d huge path)) = true ->
  disc_json iter rnd f d huge path =
    (Ok (json_value d (fst (getRAMsData iter rnd f d huge path))), snd (getRAMsData iter rnd f d huge path)).
Proof.
  unfold disc_json, disc_json_value. destruct (getRAMsData _ _ _ _ _ _) as [data f']. cbn [fst snd]. intros Hd.
  f_equal. unfold json_value. rewrite disc_config_nf. cbn [rbind app]. unfold merge_ram_config.
  pose proof (text_ok_intss (disc_mapping d)) as Hm. revert Hm. generalize (jintss (disc_mapping d)) as m. intros m Hm.
  destruct (d_rams d) as [|r rs].
  - match goal with |- _ = Ok ?j => transitivity (retext j); [reflexivity|] end.
    text_ok_members; auto using text_ok_int, text_ok_bool, text_ok_version, text_ok_str.
  - match goal with |- _ = Ok ?j => transitivity (retext j); [reflexivity|] end.
    text_ok_members; auto using text_ok_int, text_ok_bool, text_ok_version, text_ok_str.
Qed.

Lemma jsonConfig_mapping d : exists j, disc_jsonConfig d = Ok j /\
  (let* m := jfield j (lit "mapping") in jget_intss m) = jget_intss (jintss (r_addresses <$> d_rams d)) /\
  jfield j (lit "mapping") = Ok (JArr ((fun r => JArr (JInt <$> r_addresses r)) <$> d_rams d)).
Proof.
  exists (jsonConfig_value d). split; [apply disc_jsonConfig_nf|].
  assert (jfield (jsonConfig_value d) (lit "mapping") = Ok (jintss (disc_mapping d))) as ->.
  { unfold jsonConfig_value. generalize (jintss (disc_mapping d)) as m. intros m. destruct (d_rams d); reflexivity. }
  split; [reflexivity|]. unfold jintss, disc_mapping. rewrite <- list_fmap_compose. reflexivity.
Qed.

Lemma text_ok_obj_str l j k t : retext (JObj l) = Ok j -> (k, JStr t) ∈ l -> utf8_ok t = true.
Proof.
  cbn [retext]. revert j. induction l as [|[k' v] l IH]; intros j H Hin; [inversion Hin|].
  destruct (utf8_ok k'); [|discriminate]. apply elem_of_cons in Hin as [E|Hin].
  - injection E as <- <-. cbn [retext] in H. destruct (utf8_ok t); [reflexivity|discriminate].
  - destruct (retext v) as [y| | |]; cbn [rbind] in H; try discriminate.
    match goal with H : (let* l' := (let* ys := ?g in _) in _) = _ |- _ => destruct g as [ys| | |] eqn:E end; cbn [rbind] in H; try discriminate.
    eapply (IH (JObj ys)); [reflexivity|exact Hin].
Qed.
Lemma disc_json_retext iter rnd f d huge path :
  disc_json iter rnd f d huge path =
    (retext (json_value d (fst (getRAMsData iter rnd f d huge path))), snd (getRAMsData iter rnd f d huge path)).
Proof.
  unfold disc_json, disc_json_value. destruct (getRAMsData _ _ _ _ _ _) as [data f']. cbn [fst snd].
  f_equal. unfold json_value. rewrite disc_config_nf. cbn [rbind app]. unfold merge_ram_config.
  generalize (jintss (disc_mapping d)) as m. intros m. destruct (d_rams d) as [|r rs]; reflexivity.
Qed.
Lemma disc_json_ok_utf8 iter rnd f d huge path j f' :
  disc_json iter rnd f d huge path = (Ok j, f') -> utf8_ok (fst (getRAMsData iter rnd f d huge path)) = true.
Proof.
  rewrite disc_json_retext. intros H. injection H as H _. unfold json_value in H.
  eapply text_ok_obj_str; [exact H|]. destruct (d_rams d); [right; left|right; right; left].
Qed.
Lemma json_mapping iter rnd f d huge path j f' :
  disc_json iter rnd f d huge path = (Ok j, f') ->
  jfield j (lit "mapping") = Ok (JArr ((fun r => JArr (JInt <$> r_addresses r)) <$> d_rams d)).
Proof.
  intros H. pose proof (disc_json_ok_utf8 _ _ _ _ _ _ _ _ H) as Hu. rewrite disc_json_nf in H by exact Hu.
  injection H as <- _. transitivity (Ok (jintss (disc_mapping d))).
  - unfold json_value. generalize (jintss (disc_mapping d)) as m. intros m. destruct (d_rams d); reflexivity.
  - unfold jintss, disc_mapping. rewrite <- list_fmap_compose. reflexivity.
Qed.
