(** Reachable Wisards are savable; behaviour after reloading (C59-C63). *)
From Verif Require Import Prelude Bytes Base64 Utils BinInput Bleaching Ram Json Fs RamData Disc Wisard SpecBin SpecDisc SpecBleach SpecWisard SpecSaved.
From Verif Require Import RamDataProofs DiscCtorProofs CtorFacts JsonNF RamProofs DiscProofs DiscFacts BleachProofs WisardProofs WisardFacts WisardSafety JsonProofs JsonFacts WisardJson.

Lemma built_uniform w n l d : 0 <= n <= INT_MAX -> int_options w -> some_rams w -> built w n l d -> uniform (w_ignoreZero w) (w_base w) d.
Proof.
  intros Hn (Ha & Hb & _ & _ & Hli & Hm) Hs (dr & Hdr & E). rewrite construct_disc_new in E.
  - eapply new_uniform; [exact Hdr| |exact Hb|exact Hli| |exact E]; [unfold is_int, INT_MIN, INT_MAX in *; lia|].
    destruct (w_mapping w !! l) as [m|] eqn:Em; cbn [default]; [exact (Hm l m Em)|constructor].
  - intros m E' ->. exact (Hs l E').
Qed.
Lemma winv_savable iter w0 n d0 es w : valid_iter iter -> 0 <= n <= INT_MAX -> int_options w0 -> some_rams w0 ->
  winv w0 n d0 es w -> len es <= INT_MAX -> Forall (fun e => plain_image (w_base w0) n (op_image e.2)) es ->
  (forall l d, w_discriminators w !! l = Some d -> saved_size d <= INT_MAX + 1) -> savable iter w.
Proof.
  intros Hi Hn Ho Hs (Hw & Hinv) Hl Hp Hsz l d E. specialize (Hinv l). rewrite E in Hinv. unfold label_inv in Hinv. destruct (d0 !! l) as [dd|]; [|destruct Hinv].
  destruct Hinv as (Hh & Hb & Hsh & Haft). rewrite Hw. cbn [w_ignoreZero w_base with_discriminators].
  pose proof (built_uniform w0 n l dd Hn Ho Hs Hb) as Hu.
  assert (Hv : Forall (fun o => valid_image dd (op_image o)) (history l es)).
  { apply Forall_forall. intros o Hin. apply history_elem in Hin. rewrite Forall_forall in Hp. apply (plain_valid (w_base w0) n _ _ Hn Hsh (Hp _ Hin)). }
  eapply (after_storable iter _ _ dd (history l es) d); auto.
  - apply Hsh.
  - destruct Hsh as (_ & He & Hwi & _). apply wired_mapping in Hwi. eapply Forall_impl; [exact Hwi|]. intros a Ha. eapply Forall_impl; [exact Ha|].
    intros p Hp'. cbv beta in Hp'. unfold is_int, INT_MIN, INT_MAX in *. lia.
  - pose proof (history_len l es). lia.
  - destruct (history l es) as [|[x|x] h] eqn:Eh; [congruence|exists x; left|]. exfalso. unfold history in Eh. clear -Eh.
    induction (of_label l es) as [|[y|y] k IH]; cbn in Eh; try discriminate. auto.
  - exact (Hsz l d E).
Qed.
Lemma reach lhs w0 n cs w : w_discriminators w0 = ∅ -> configured w0 n -> Forall (proper_call w0 n) cs ->
  len (all_examples cs) <= INT_MAX -> wrun lhs w0 cs = (Ok tt, w) -> exists d0, winv w0 n d0 (all_examples cs) w.
Proof.
  intros H0 Hc Hp Hm E. destruct (wrun_inv lhs w0 n cs H0 Hc Hp Hm) as (w' & d0 & E' & Hi). rewrite E in E'. injection E' as <-. eauto.
Qed.
Lemma proper_images w n cs : Forall (proper_call w n) cs -> Forall (fun e => plain_image (w_base w) n (op_image e.2)) (all_examples cs).
Proof.
  unfold all_examples. induction 1 as [|c cs Hc _ IH]; [constructor|]. rewrite fmap_cons. cbn [List.concat]. apply Forall_app. split; [apply Hc|exact IH].
Qed.
Lemma int_options_with w m : int_options (with_discriminators w m) <-> int_options w. Proof. reflexivity. Qed.
Lemma reach_savable iter lhs w0 n cs w : valid_iter iter -> w_discriminators w0 = ∅ -> configured w0 n -> Forall (proper_call w0 n) cs ->
  len (all_examples cs) <= INT_MAX -> int_options w0 -> some_rams w0 -> wrun lhs w0 cs = (Ok tt, w) ->
  (forall l d, w_discriminators w !! l = Some d -> saved_size d <= INT_MAX + 1) -> savable iter w /\ int_options w.
Proof.
  intros Hi H0 Hc Hp Hm Ho Hs E Hsz. destruct (reach lhs w0 n cs w H0 Hc Hp Hm E) as (d0 & Hinv). pose proof Hinv as [Hw _]. split.
  - eapply winv_savable; eauto; [apply Hc|apply proper_images; exact Hp].
  - rewrite Hw. exact Ho.
Qed.

(** Future calls on known labels. *)
Definition lift (r : eff wisard unit) : eff wisard unit := let '(o, w) := r in (o, without_mapping w).
Lemma known_at_label f w l k : is_Some (w_discriminators (snd (at_label f w l)) !! k) <-> is_Some (w_discriminators w !! k).
Proof.
  unfold at_label. destruct (w_discriminators w !! l) as [d|] eqn:E; [|reflexivity]. destruct (f d) as [o d']. cbn.
  destruct (decide (l = k)) as [<-|Hn]; [rewrite lookup_insert, E; split; eauto|rewrite lookup_insert_ne by exact Hn; reflexivity].
Qed.
Lemma at_label_wm f w l : at_label f (without_mapping w) l = lift (at_label f w l).
Proof. unfold at_label, without_mapping. cbn. destruct (w_discriminators w !! l) as [d|]; [|reflexivity]. destruct (f d). reflexivity. Qed.
Lemma ebind_lift (r : eff wisard unit) (k : unit -> wisard -> eff wisard unit) :
  (k tt (without_mapping (snd r)) = lift (k tt (snd r))) -> ebind (lift r) k = lift (ebind r k).
Proof. destruct r as [[[]| | |] w]; cbn; auto. Qed.
Lemma train1_known lhs env w x l : is_Some (w_discriminators w !! l) -> wisard_train1 lhs env w x l = at_label (fun d => disc_train d x) w l.
Proof. intros [d E]. unfold wisard_train1. rewrite E. reflexivity. Qed.
Lemma leave_known w x l : is_Some (w_discriminators w !! l) -> leaveOneOut w x l = at_label (fun d => disc_untrain d x) w l.
Proof. intros [d E]. unfold leaveOneOut. rewrite E. reflexivity. Qed.
Definition knows (w : wisard) (ls : list str) : Prop := Forall (fun l => is_Some (w_discriminators w !! l)) ls.
Lemma train_loop_wm lhs env : forall xs ls w, knows w ls ->
  wisard_train_loop lhs env (without_mapping w) xs ls = lift (wisard_train_loop lhs env w xs ls) /\
  forall k, is_Some (w_discriminators w !! k) -> is_Some (w_discriminators (snd (wisard_train_loop lhs env w xs ls)) !! k).
Proof.
  induction xs as [|x xs IH]; intros [|l ls] w Hk; try (split; [reflexivity|auto]). apply Forall_cons in Hk as [Hl Hk]. cbn [wisard_train_loop].
  rewrite !train1_known by assumption. set (r := at_label _ w l).
  assert (Hk' : knows (snd r) ls) by (eapply Forall_impl; [exact Hk|]; intros k Hkk; apply known_at_label; exact Hkk).
  destruct (IH ls (snd r) Hk') as [IH1 IH2]. split.
  - rewrite at_label_wm. fold r. apply ebind_lift. exact IH1.
  - intros k Hkk. apply (ebind_snd r _ (fun s => is_Some (w_discriminators s !! k))); [apply known_at_label; exact Hkk|].
    intros [] s E. replace s with (snd r) by (rewrite E; reflexivity). apply IH2. apply known_at_label. exact Hkk.
Qed.
Lemma leave_wm w x l : leaveOneOut (without_mapping w) x l = lift (leaveOneOut w x l).
Proof. unfold leaveOneOut. cbn [without_mapping w_discriminators]. destruct (w_discriminators w !! l); [apply at_label_wm|reflexivity]. Qed.
Lemma known_leave w x l k : is_Some (w_discriminators w !! k) -> is_Some (w_discriminators (snd (leaveOneOut w x l)) !! k).
Proof. intros H. unfold leaveOneOut. destruct (w_discriminators w !! l); [apply known_at_label|]; exact H. Qed.
Lemma leave_loop_wm : forall xs ls w,
  leaveMoreOut_loop (without_mapping w) xs ls = lift (leaveMoreOut_loop w xs ls) /\
  forall k, is_Some (w_discriminators w !! k) -> is_Some (w_discriminators (snd (leaveMoreOut_loop w xs ls)) !! k).
Proof.
  induction xs as [|x xs IH]; intros [|l ls] w; try (split; [reflexivity|auto]). cbn [leaveMoreOut_loop].
  set (r := leaveOneOut w x l). destruct (IH ls (snd r)) as [IH1 IH2]. split.
  - rewrite leave_wm. fold r. apply ebind_lift. exact IH1.
  - intros k Hkk. apply (ebind_snd r _ (fun s => is_Some (w_discriminators s !! k))); [apply known_leave; exact Hkk|].
    intros [] s E. replace s with (snd r) by (rewrite E; reflexivity). apply IH2. apply known_leave. exact Hkk.
Qed.
Lemma call_wm lhs w c : on_known w c -> wcall_run lhs (without_mapping w) c = lift (wcall_run lhs w c) /\
  forall k, is_Some (w_discriminators w !! k) -> is_Some (w_discriminators (snd (wcall_run lhs w c)) !! k).
Proof.
  intros H. destruct c as [env xs ls|x l|xs ls]; cbn [wcall_run on_known] in *.
  - unfold wisard_train. destruct xs as [|x xs]; [split; [reflexivity|auto]|]. cbn [without_mapping w_addressSize w_completeAddressing w_confidence].
    destruct (calculateNumberOfRams _ _ _); try (split; [reflexivity|auto]; fail). destruct (checkConfidence _ _); try (split; [reflexivity|auto]; fail).
    destruct (checkInputSizes _ _); try (split; [reflexivity|auto]; fail). apply train_loop_wm. exact H.
  - split; [apply leave_wm|]. intros k. apply known_leave.
  - unfold leaveMoreOut. destruct (checkInputSizes _ _); try (split; [reflexivity|auto]; fail). apply leave_loop_wm.
Qed.
Lemma run_wm lhs : forall cs w, Forall (on_known w) cs -> wrun lhs (without_mapping w) cs = lift (wrun lhs w cs).
Proof.
  unfold wrun. induction cs as [|c cs IH]; intros w H; [reflexivity|]. apply Forall_cons in H as [Hc H]. cbn [efor].
  destruct (call_wm lhs w c Hc) as [E Hk]. rewrite E. apply ebind_lift. apply IH.
  eapply Forall_impl; [exact H|]. intros c' Hc'. unfold on_known in *. eapply Forall_impl; [exact Hc'|]. intros l. apply Hk.
Qed.
Lemma classify_wm w xs : wisard_classify (without_mapping w) xs = wisard_classify w xs.
Proof. rewrite <- (searchBest_irrelevant w false xs). reflexivity. Qed.

(** C60 *)
Lemma wisard_saved iter rnd lhs w0 n cs w f path : good_iter iter -> w_discriminators w0 = ∅ -> configured w0 n -> Forall (proper_call w0 n) cs ->
  len (all_examples cs) <= INT_MAX -> int_options w0 -> some_rams w0 -> wrun lhs w0 cs = (Ok tt, w) ->
  (forall l d, w_discriminators w !! l = Some d -> utf8_ok l = true /\ saved_size d <= INT_MAX + 1) ->
  exists j, wisard_json iter rnd f w false path = (Ok j, f) /\ forall f', wisard_of_json f' j = Ok (without_mapping w).
Proof.
  intros Hi H0 Hc Hp Hm Ho Hs E Hlab. destruct (reach_savable iter lhs w0 n cs w Hi H0 Hc Hp Hm Ho Hs E) as [H1 H2]; [intros l d El; apply (Hlab l d El)|].
  apply wisard_roundtrip_mem; auto. intros l [d El]. apply (Hlab l d El).
Qed.
Lemma wisard_saved_huge iter rnd lhs w0 n cs w f path : good_iter iter -> w_discriminators w0 = ∅ -> configured w0 n -> Forall (proper_call w0 n) cs ->
  len (all_examples cs) <= INT_MAX -> int_options w0 -> some_rams w0 -> wrun lhs w0 cs = (Ok tt, w) ->
  (forall l d, w_discriminators w !! l = Some d -> utf8_ok l = true /\ saved_size d <= INT_MAX + 1) ->
  (forall k, length (rnd k) = 10%nat) ->
  (forall l, is_Some (w_discriminators w !! l) ->
     let name := path ++ l ++ lit "__" ++ rnd l ++ lit ".wdpkg" in
     utf8_ok name = true /\ len name < W64 /\ fs_writable f name = true /\ fs_read f name = None) ->
  exists j f', wisard_json iter rnd f w true path = (Ok j, f') /\ wisard_of_json f' j = Ok (without_mapping w).
Proof.
  intros Hi H0 Hc Hp Hm Ho Hs E Hlab Hr Hf. destruct (reach_savable iter lhs w0 n cs w Hi H0 Hc Hp Hm Ho Hs E) as [H1 H2]; [intros l d El; apply (Hlab l d El)|].
  apply wisard_roundtrip_file; auto. intros l [d El]. split; [apply (Hlab l d El)|]. apply Hf. eauto.
Qed.

(** C59 *)
Definition config_value (d : disc) : json := JObj [(lit "entrySize", JInt (d_entrySize d)); (lit "mapping", jintss (disc_mapping d))].
Definition config_members (l : list (str * disc)) : list (str * json) := (fun kd => (kd.1, config_value kd.2)) <$> l.
Lemma config_classes_nf : forall l acc, StronglySorted lt_key l -> Forall (fun kv => Forall (fun kd => str_lt kv.1 kd.1) l) acc ->
  config_classes l (obj acc) = Ok (obj (acc ++ config_members l)).
Proof.
  induction l as [|[k d] l IH]; intros acc Hs Ha; [unfold config_members; cbn; rewrite app_nil_r; reflexivity|].
  cbn [config_classes]. unfold disc_getConfigJSON. rewrite disc_config_nf. cbn [rbind app]. inversion Hs as [|? ? Hs' Hk]; subst.
  rewrite jset_last by (eapply Forall_impl; [exact Ha|]; intros kv H; apply Forall_cons in H as [H _]; exact H). cbn [rbind].
  rewrite IH; [|exact Hs'|].
  - rewrite <- app_assoc. reflexivity.
  - apply Forall_app. split; [eapply Forall_impl; [exact Ha|]; intros kv H; apply Forall_cons in H as [_ H]; exact H|].
    constructor; [|constructor]. cbn [fst]. apply Forall_forall. intros x Hx. rewrite List.Forall_forall in Hk. apply elem_of_list_In in Hx. exact (Hk x Hx).
Qed.
Lemma text_ok_config d : text_ok (config_value d).
Proof.
  unfold config_value. pose proof (text_ok_intss (disc_mapping d)) as Hm. revert Hm. generalize (jintss (disc_mapping d)) as m. intros m Hm.
  text_ok_members; auto using text_ok_int.
Qed.
Lemma wisard_jsonConfig_nf w : (forall l, is_Some (w_discriminators w !! l) -> utf8_ok l = true) ->
  wisard_jsonConfig w = Ok (wisard_value w (obj (config_members (sorted_items (w_discriminators w))))).
Proof.
  intros H. unfold wisard_jsonConfig. change JNull with (obj []). rewrite config_classes_nf; [|apply sorted_items_strict|constructor]. cbn [rbind app].
  rewrite wisard_value_set. cbn [rbind]. apply text_ok_value. set (l := sorted_items _).
  assert (text_ok (JObj (config_members l))) as Ho; [|unfold obj; destruct (config_members l); [reflexivity|exact Ho]].
  apply text_ok_obj. unfold config_members. apply Forall_fmap. apply Forall_forall. intros [k d] Hk. apply sorted_items_elem in Hk. split; [apply H; eauto|apply text_ok_config].
Qed.
Lemma config_reload f d iz base : disc_of_json f (merge_patch (config_value d) (rbase_of iz base)) = Throw EJsonType.
Proof. unfold config_value. generalize (jintss (disc_mapping d)) as m. intros m. reflexivity. Qed.
Lemma wisard_of_value_throw f w classes ms e : int_options w -> jmembers classes = Ok ms ->
  load_classes f (rbase_of (w_ignoreZero w) (w_base w)) ms ∅ = Throw e ->
  wisard_of_json f (wisard_value w classes) = Throw e.
Proof. intros Ho Hm Hl. rewrite wisard_of_value_gen by exact Ho. rewrite Hm. cbn [rbind]. rewrite Hl. reflexivity. Qed.
Lemma wisard_jsonConfig_reload w : int_options w -> (forall l, is_Some (w_discriminators w !! l) -> utf8_ok l = true) -> w_discriminators w <> ∅ ->
  exists j, wisard_jsonConfig w = Ok j /\ forall f, wisard_of_json f j = Throw EJsonType.
Proof.
  intros Ho Hu Hne. eexists. split; [apply wisard_jsonConfig_nf; exact Hu|]. intros f. eapply wisard_of_value_throw; [exact Ho|apply jmembers_obj|].
  destruct (sorted_items (w_discriminators w)) as [|[k d] l] eqn:E.
  - exfalso. apply Hne. rewrite <- (sorted_items_map (w_discriminators w)), E. reflexivity.
  - unfold config_members. rewrite fmap_cons. cbn [load_classes fst snd]. rewrite config_reload. reflexivity.
Qed.
Lemma wisard_jsonConfig_untrained w : int_options w -> w_discriminators w = ∅ ->
  exists j, wisard_jsonConfig w = Ok j /\ forall f, wisard_of_json f j = Ok (without_mapping w).
Proof.
  intros Ho He. assert (Es : sorted_items (w_discriminators w) = []).
  { rewrite He. reflexivity. }
  eexists. split; [apply wisard_jsonConfig_nf; rewrite He; intros l [d H]; rewrite lookup_empty in H; discriminate|]. intros f.
  rewrite <- (with_own w). eapply wisard_of_value; [exact Ho|apply jmembers_obj|]. rewrite Es. cbn. rewrite He. reflexivity.
Qed.
