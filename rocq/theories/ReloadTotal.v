(** Outcomes of the constructors that take a JSON value, for any value. *)
From Coq Require Import SpecFloat.
From Verif Require Import Prelude Bytes Base64 Utils Float32 BinInput Bleaching Ram Json Fs RamData Disc Wisard Cluster ClusWisard JsonText TextApi.
From Verif Require Import BytesProofs Base64Proofs UtilsProofs TextProofs TextTotal ParseValues LabelProofs SpecReload.
From Verif Require OptionsJson.

(** [fine U r]: r is a value, an exception, or an undefined behaviour of a kind in U. *)
Definition fine {A} (U : ub -> Prop) (r : res A) : Prop :=
  match r with Ok _ | Throw _ => True | UB u => U u | Hang => False end.
Lemma fine_bind {A B} U (m : res A) (k : A -> res B) : fine U m -> (forall a, m = Ok a -> fine U (k a)) -> fine U (let* x := m in k x).
Proof. destruct m; cbn; auto. Qed.
Lemma fine_mapM {A B} U (g : A -> res B) l : Forall (fun x => fine U (g x)) l -> fine U (rmapM g l).
Proof. induction 1 as [|x l Hx _ IH]; [exact I|]. cbn [rmapM]. apply fine_bind; [exact Hx|]. intros y _. apply fine_bind; [exact IH|]. intros; exact I. Qed.

Section fine.
Variable U : ub -> Prop.

Lemma peek_fine rest k : U UBIndex -> fine U (peek rest k).
Proof. intros H. unfold peek. destruct (rest !! k); [exact I|]. destruct (Nat.eqb _ _); [exact I|exact H]. Qed.
Lemma put_fine room out z : U UBIndex -> fine U (put room out z).
Proof. intros H. unfold put. destruct (_ <? _); [exact I|exact H]. Qed.
Lemma decode_loop_fine fuel : U UBIndex -> forall rest room out, (length rest <= fuel)%nat -> fine U (decode_loop fuel rest room out).
Proof.
  intros HU. induction fuel as [|fuel IH]; intros rest room out Hl; (destruct rest as [|c0 rest]; [exact I|]); [cbn in Hl; lia|].
  cbn [decode_loop]. apply fine_bind; [apply peek_fine, HU|]. intros c1 _. apply fine_bind; [apply put_fine, HU|]. intros [room1 out1] _.
  apply fine_bind; [apply peek_fine, HU|]. intros c2 _. destruct (decide (c2 = pad)); [exact I|].
  apply fine_bind; [apply put_fine, HU|]. intros [room2 out2] _. apply fine_bind; [apply peek_fine, HU|]. intros c3 _.
  destruct (decide (c3 = pad)); [exact I|]. apply fine_bind; [apply put_fine, HU|]. intros [room3 out3] _. apply IH.
  rewrite drop_length. cbn [length] in *. lia.
Qed.
Lemma vget_fine {A} (l : list A) i : U UBIndex -> fine U (vget l i).
Proof. intros H. unfold vget. destruct (0 <=? i); [|exact H]. destruct (l !! Z.to_nat i); [exact I|exact H]. Qed.
Lemma decode_fine p : U UBIndex \/ (p <> [] /\ len p mod 4 = 0) -> fine U (Base64.decode p).
Proof.
  intros [HU|[H1 H2]]; [|destruct (decode_safe p H1 H2) as [s ->]; exact I].
  unfold Base64.decode. apply fine_bind; [apply vget_fine, HU|]. intros c2 _.
  apply fine_bind. { destruct (decide (c2 = pad)); [exact I|]. apply fine_bind; [apply vget_fine, HU|]. intros; exact I. }
  intros m _. destruct (_ <? 0); [exact I|]. apply decode_loop_fine; [exact HU|auto].
Qed.
Lemma dataToRam_fine p : U UBIndex \/ (p <> [] /\ len p mod 4 = 0) -> fine U (dataToRam p).
Proof. intros H. unfold dataToRam. apply fine_bind; [apply decode_fine, H|]. intros d _. destruct (negb _); exact I. Qed.
Lemma substr_fine s pos n : fine U (substr s pos n).
Proof. unfold substr. destruct (_ <? _); exact I. Qed.
Lemma checkLimit_fine n b : 0 <= n <= INT_MAX -> U UBOverflow \/ fits b n -> fine U (checkLimitAddressSize n b).
Proof.
  intros Hn Hb. unfold checkLimitAddressSize. destruct (Z.eqb_spec b 2); [destruct (64 <? n); exact I|].
  apply fine_bind; [|intros p _; destruct (_ <? _); exact I].
  assert (Hn' : 0 <= n <= LL_MAX) by (unfold INT_MAX, LL_MAX in *; lia).
  destruct (ipow_total b n Hn') as [[v ->]|E]; [exact I|]. destruct Hb as [Hb|[Hb|Hb]]; [rewrite E; exact Hb|contradiction|].
  rewrite (ipow_exact b n Hn'); [exact I|unfold LL_MIN, LL_MAX; lia].
Qed.

(** Reading members. *)
Definition int_ok (j : json) : Prop := U UBCast \/ forall f, j = JFloat f -> castable f.
Lemma int_fine j : int_ok j -> fine U (jget_int j).
Proof.
  intros H. destruct j as [|b|z|f|s|l|l]; try exact I. cbn. destruct H as [H|H].
  - destruct (f32_trunc f) as [z|]; [destruct (in_int z); [exact I|exact H]|exact H].
  - destruct (H f eq_refl) as (z & -> & Hz). assert (E : in_int z = true) by (unfold in_int, INT_MIN, INT_MAX in *; lia). rewrite E. exact I.
Qed.
Lemma uint_fine j : int_ok j -> fine U (jget_uint j).
Proof.
  intros H. destruct j as [|b|z|f|s|l|l]; try exact I. cbn. destruct H as [H|H].
  - destruct (f32_trunc f) as [z|]; [destruct (_ && _)%bool; [exact I|exact H]|exact H].
  - destruct (H f eq_refl) as (z & -> & Hz). assert (E : (0 <=? z) && (z <? W32) = true) by (unfold INT_MAX, W32 in *; lia). rewrite E. exact I.
Qed.
Lemma bool_fine j : fine U (jget_bool j). Proof. destruct j; exact I. Qed.
Lemma str_fine j : fine U (jget_str j). Proof. destruct j; exact I. Qed.
Lemma float_fine j : fine U (jget_float j). Proof. destruct j; exact I. Qed.
Lemma field_fine j k : fine U (jfield j k). Proof. destruct j; exact I. Qed.
Lemma members_fine j : fine U (jmembers j). Proof. destruct j as [| | | | |[|]|]; exact I. Qed.
Lemma opt_fine {A} (get : json -> res A) d o k : (forall v, jfield o k = Ok v -> fine U (get v)) -> fine U (jopt get d o k).
Proof. intros H. unfold jopt. apply fine_bind; [apply field_fine|]. intros v Hv. specialize (H v Hv). destruct v; try exact I; exact H. Qed.

(** Pieces. *)
Definition seg_ok (p : str) : Prop := "."%char ∉ p /\ len p <= INT_MAX /\ (U UBIndex \/ (6 <= len p -> len p mod 4 = 0)).
Lemma split_dot (s : str) : "."%char ∉ s \/ exists a r, s = a ++ "."%char :: r /\ "."%char ∉ a.
Proof.
  induction s as [|c s IH]; [left; inversion 1|]. destruct (decide (c = "."%char)) as [->|N]; [right; exists [], s; split; [reflexivity|inversion 1]|].
  destruct IH as [H|(a & r & -> & H)]; [left|right; exists (c :: a), r; split; [reflexivity|]]; (intros Hi; apply elem_of_cons in Hi as [Hi|Hi]; [congruence|exact (H Hi)]).
Qed.
Lemma handle_seg_fine f p : seg_ok p -> fine U (handle_of_text f p).
Proof.
  intros (Hd & Hl & Hu). unfold handle_of_text. apply fine_bind; [unfold has_suffix; apply fine_bind; [apply substr_fine|intros; exact I]|].
  intros isfile E. unfold has_suffix in E. destruct (Z.ltb_spec (len p) 6) as [Hs|Hs].
  { exfalso. unfold substr in E. change (len ramdata_sufix) with 6 in E. pose proof (len_nonneg p).
    assert (Hu6 : u64 (len p - 6) = len p - 6 + W64) by (unfold u64; symmetry; apply (Z.mod_unique_pos _ _ (-1)); unfold W64; lia).
    rewrite Hu6 in E. destruct (Z.ltb_spec (len p) (len p - 6 + W64)); [|unfold W64 in *; lia]. discriminate. }
  assert (isfile = false) as ->.
  { change (len ramdata_sufix) with 6 in E. destruct (substr p (len p - 6) 6) as [e| | |] eqn:Es; cbn [rbind] in E; try discriminate.
    injection E as <-. apply bool_decide_eq_false. intros ->. apply Hd.
    assert (Hin : forall c, c ∈ ramdata_sufix -> c ∈ p).
    { unfold substr in Es. destruct (_ <? _); [discriminate|]. intros c Hc. injection Es as Es. rewrite <- Es in Hc.
      apply elem_of_list_In in Hc. apply elem_of_list_In.
      assert (Hdr : forall n (l : str), In c (drop n l) -> In c l) by (intros n l Hi; rewrite <- (take_drop n l); apply in_or_app; right; exact Hi).
      assert (Htk : forall n (l : str), In c (take n l) -> In c l) by (intros n l Hi; rewrite <- (take_drop n l); apply in_or_app; left; exact Hi).
      destruct (_ <=? _); eauto. }
    apply Hin. left. }
  cbn [setData_loop]. destruct (Z.ltb_spec 0 (len p)); [|lia]. pose proof (find_char_none "."%char [] p) as Hf. cbn [app] in Hf. change (len (@nil ascii)) with 0 in Hf.
  rewrite Hf; [|reflexivity|exact Hd]. change (u32 npos) with (W32 - 1). cbv zeta.
  pose proof (substr_rest [] p (u32 (W32 - 1 - 0))) as Hsub. cbn [app] in Hsub. change (len (@nil ascii)) with 0 in Hsub.
  rewrite Hsub; [|unfold W64, INT_MAX in *; lia|change (u64 (u32 (W32 - 1 - 0))) with (W32 - 1); unfold W32, INT_MAX in *; lia]. cbn [rbind].
  apply fine_bind.
  { apply dataToRam_fine. destruct Hu as [Hu|Hu]; [left; exact Hu|right]. split; [intros ->; change (len (@nil ascii)) with 0 in Hs; lia|exact (Hu Hs)]. }
  intros m _. destruct (length p); cbn [setData_loop]; (destruct (Z.ltb_spec (W32 - 1) (len p)); [unfold W32, INT_MAX in *; lia|exact I]).
Qed.

(** Values: [b] is the base used. *)
Variable b : Z.
Definition base_ok (v : json) : Prop := forall z, jget_int v = Ok z -> z = 0 \/ z = 1 \/ z = 2 \/ z = b.
Inductive gt : json -> Prop :=
| Gt_null : gt JNull
| Gt_bool x : gt (JBool x)
| Gt_int z : gt (JInt z)
| Gt_float f : (U UBCast \/ castable f) -> gt (JFloat f)
| Gt_str s : len s <= INT_MAX - 1 -> gt (JStr s)
| Gt_arr l : len l <= INT_MAX -> (U UBOverflow \/ fits b (len l)) -> Forall gt l -> gt (JArr l)
| Gt_obj l : Forall (fun kv => gt kv.2 \/ kv.1 = lit "minScore" /\ exists f, kv.2 = JFloat f) l ->
    (forall s, (lit "data", JStr s) ∈ l -> U UBIndex \/ well_cut s) ->
    (forall v, (lit "base", v) ∈ l -> U UBOverflow \/ base_ok v) -> gt (JObj l).
Lemma gt_int j : gt j -> int_ok j.
Proof. destruct 1 as [| | |f H| | |]; try (right; intros ? [=]; fail). destruct H as [H|H]; [left; exact H|right; intros ? [= <-]; exact H]. Qed.
Lemma gt_field j k v : gt j -> k <> lit "minScore" -> jfield j k = Ok v -> gt v.
Proof.
  intros Hj Hk H. destruct Hj as [| | | | | |l H1 H2 H3]; cbn in H; try discriminate; [injection H as <-; constructor|].
  injection H as <-. destruct (assoc k l) as [v|] eqn:E; [|constructor]. apply assoc_mem in E. rewrite Forall_forall in H1.
  destruct (H1 _ E) as [H|[H _]]; [exact H|]. cbn in H. contradiction.
Qed.
Lemma gt_base j v : gt j -> jfield j (lit "base") = Ok v -> U UBOverflow \/ base_ok v.
Proof.
  intros Hj H. destruct Hj as [| | | | | |l H1 H2 H3]; cbn in H; try discriminate; [injection H as <-; right; intros z [=]|].
  injection H as <-. destruct (assoc _ l) as [v|] eqn:E; [|right; intros z [=]]. apply assoc_mem in E. exact (H3 _ E).
Qed.
Lemma gt_data j s : gt j -> jfield j (lit "data") = Ok (JStr s) -> U UBIndex \/ well_cut s.
Proof.
  intros Hj H. destruct Hj as [| | | | | |l H1 H2 H3]; cbn in H; try discriminate.
  injection H as H. destruct (assoc _ l) as [v|] eqn:E; [|discriminate]. subst v. apply assoc_mem in E. exact (H2 _ E).
Qed.
Lemma gt_values j : gt j -> Forall (fun v => gt v \/ exists f, v = JFloat f) (jvalues j).
Proof.
  intros Hj. destruct Hj as [| | |f H|s H|l H1 H2 H3|l H1 H2 H3]; cbn [jvalues]; [constructor|constructor; [left; constructor; assumption|constructor]..| |].
  - apply (Forall_impl _ _ _ H3). auto.
  - apply Forall_fmap. apply (Forall_impl _ _ _ H1). intros [k v] [H|[_ H]]; cbn in *; auto.
Qed.
Lemma ints_fine j : gt j -> fine U (jget_ints j).
Proof.
  intros Hj. destruct Hj as [| | |f H|s H|l H1 H2 H3|l H1 H2 H3]; try exact I. cbn. apply fine_mapM. apply (Forall_impl _ _ _ H3).
  intros x Hx. apply int_fine, gt_int, Hx.
Qed.
Lemma intss_fine j : gt j -> fine U (jget_intss j).
Proof.
  intros Hj. destruct Hj as [| | |f H|s H|l H1 H2 H3|l H1 H2 H3]; try exact I. cbn. apply fine_mapM. apply (Forall_impl _ _ _ H3).
  intros x Hx. apply ints_fine, Hx.
Qed.
Lemma mappings_fine j : gt j -> fine U (jget_mappings j).
Proof.
  intros Hj. destruct Hj as [| | |f H|s H|l H1 H2 H3|l H1 H2 H3]; try exact I. cbn [jget_mappings]. apply fine_bind; [|intros; exact I].
  apply fine_mapM. apply (Forall_impl _ _ _ H1). intros [k v] Hx. cbn in *. apply fine_bind; [|intros; exact I].
  destruct Hx as [Hx|[_ [f ->]]]; [apply intss_fine, Hx|exact I].
Qed.
Lemma rmapM_len {A B} (g : A -> res B) l : forall l', rmapM g l = Ok l' -> length l' = length l.
Proof.
  induction l as [|x l IH]; intros l' H; cbn in H; [injection H as <-; reflexivity|].
  destruct (g x); cbn in H; try discriminate. destruct (rmapM g l); cbn in H; try discriminate. injection H as <-. cbn. rewrite (IH _ eq_refl). reflexivity.
Qed.

(** RAM(nl::json). *)
Lemma fits_small z n : 0 <= n -> z = 0 \/ z = 1 \/ z = 2 \/ z = b -> fits b n -> fits z n.
Proof.
  intros Hn [E|[E|[E|E]]] H; subst z; [right|right|left; reflexivity|exact H].
  - destruct (Z.eq_dec n 0) as [->|]; [cbn; lia|]. rewrite Z.pow_0_l by lia. lia.
  - rewrite Z.pow_1_l by lia. lia.
Qed.
Lemma ram_fine f c : (forall v, jfield c (lit "base") = Ok v -> int_ok v /\ (U UBOverflow \/ base_ok v)) ->
  (forall v, jfield c (lit "addresses") = Ok v -> gt v \/ exists f, v = JFloat f) ->
  (forall s, jfield c (lit "data") = Ok (JStr s) -> seg_ok s) -> fine U (ram_of_json f c).
Proof.
  intros H1 H2 H3. unfold ram_of_json.
  apply fine_bind; [apply field_fine|]. intros v0 _. apply fine_bind; [apply bool_fine|]. intros iz _.
  apply fine_bind; [apply field_fine|]. intros vb Hb. destruct (H1 _ Hb) as [Hi Hbase]. apply fine_bind; [apply int_fine, Hi|]. intros base Eb.
  apply fine_bind; [apply field_fine|]. intros va Ha. apply H2 in Ha. apply fine_bind; [destruct Ha as [Ha|[x ->]]; [apply ints_fine, Ha|exact I]|]. intros addrs Ea.
  apply fine_bind.
  - destruct Ha as [Ha|[x ->]]; [|discriminate]. destruct Ha as [| | |x H|s H|l L1 L2 L3|l L1 L2 L3]; try discriminate. cbn in Ea.
    assert (El : len addrs = len l) by (unfold len; rewrite (rmapM_len _ _ _ Ea); reflexivity). rewrite El.
    pose proof (len_nonneg l). rewrite s32_id by (unfold INT_MIN, INT_MAX in *; lia). apply checkLimit_fine; [lia|].
    destruct Hbase as [Hbase|Hbase]; [left; exact Hbase|]. destruct L2 as [L2|L2]; [left; exact L2|right]. apply fits_small; [lia|exact (Hbase _ Eb)|exact L2].
  - intros _ _. apply fine_bind; [apply field_fine|]. intros vd Hd. apply fine_bind; [apply str_fine|]. intros data Ed.
    destruct vd; try discriminate. injection Ed as ->. apply fine_bind; [apply handle_seg_fine, H3, Hd|]. intros; exact I.
Qed.
Definition mstep (k : str) (v : json) (tl : list (str * json)) : list (str * json) :=
  match v with
  | JNull => jremove k tl
  | _ => jinsert k (merge_patch (match assoc k tl with Some t => t | None => JNull end) v) tl
  end.
Definition mgo := fix go (pl : list (str * json)) (tl : list (str * json)) {struct pl} : list (str * json) :=
  match pl with
  | [] => tl
  | (k, v) :: pl' =>
      match v with
      | JNull => go pl' (jremove k tl)
      | _ => go pl' (jinsert k (merge_patch (match assoc k tl with Some t => t | None => JNull end) v) tl)
      end
  end.
Lemma merge_obj t pl : merge_patch t (JObj pl) = JObj (mgo pl (match t with JObj tl => tl | _ => [] end)).
Proof. reflexivity. Qed.
Lemma mgo_nil tl : mgo [] tl = tl.
Proof. reflexivity. Qed.
Lemma mgo_cons k v pl tl : mgo ((k, v) :: pl) tl = mgo pl (mstep k v tl).
Proof. destruct v; reflexivity. Qed.
Lemma assoc_jremove k k' l : assoc k (jremove k' l) = if decide (k' = k) then None else assoc k l.
Proof.
  unfold jremove. induction l as [|[q w] l IH]; [cbn; destruct (decide _); reflexivity|]. rewrite filter_cons. cbn [fst].
  destruct (decide (q <> k')) as [N|N]; cbn [assoc]; rewrite IH; destruct (decide (k' = k)) as [->|]; destruct (decide (q = k)); try reflexivity; congruence || (exfalso; apply N; congruence).
Qed.
Lemma assoc_mstep k k' v l : assoc k (mstep k' v l) = if decide (k' = k) then
  match v with JNull => None | _ => Some (merge_patch (match assoc k' l with Some t => t | None => JNull end) v) end else assoc k l.
Proof. destruct v; cbn [mstep]; rewrite ?assoc_jremove, ?OptionsJson.assoc_jinsert; reflexivity. Qed.
Lemma parts_fine f iz base a s : int_ok base -> (U UBOverflow \/ base_ok base) -> (gt a \/ exists f, a = JFloat f) -> seg_ok s ->
  fine U (ram_of_parts f (jobject [(lit "ignoreZero", iz); (lit "base", base)]) a s).
Proof.
  intros Hi Hb Ha Hs. unfold ram_of_parts.
  assert (E : exists l, merge_patch (jobject [(lit "addresses", a); (lit "data", JStr s)]) (jobject [(lit "ignoreZero", iz); (lit "base", base)]) = JObj l /\
    assoc (lit "addresses") l = Some a /\ assoc (lit "data") l = Some (JStr s) /\
    forall v, assoc (lit "base") l = Some v -> v = base \/ exists m, v = JObj m).
  { clear Hi Hb Ha.
    assert (Et : jobject [(lit "addresses", a); (lit "data", JStr s)] = JObj [(lit "addresses", a); (lit "data", JStr s)]) by (vm_compute; reflexivity).
    assert (Ep : jobject [(lit "ignoreZero", iz); (lit "base", base)] = JObj [(lit "base", base); (lit "ignoreZero", iz)]) by (vm_compute; reflexivity).
    rewrite Et, Ep, merge_obj. eexists. split; [reflexivity|]. rewrite !mgo_cons, mgo_nil.
    split; [rewrite !assoc_mstep; rewrite !decide_False by discriminate; reflexivity|]. split; [rewrite !assoc_mstep; rewrite !decide_False by discriminate; reflexivity|].
    intros v Hv. rewrite assoc_mstep, decide_False, assoc_mstep, decide_True in Hv by (reflexivity || discriminate).
    destruct base; try (left; injection Hv as <-; reflexivity); [discriminate|]. right. rewrite merge_obj in Hv. apply (f_equal (fun o => match o with Some x => x | None => JNull end)) in Hv. rewrite <- Hv. eexists. reflexivity. }
  destruct E as (l & -> & E1 & E2 & E3). apply ram_fine.
  - intros v Hv. unfold jfield in Hv. apply (f_equal (fun r => match r with Ok x => x | _ => JNull end)) in Hv. subst v.
    assert (Hj : forall w, (w = JNull \/ exists m, w = JObj m) -> int_ok w /\ (U UBOverflow \/ base_ok w)).
    { intros w [->|[m ->]]; (split; right; [intros ? [=]|intros ? [=]]). }
    destruct (assoc (lit "base") l) as [v|] eqn:E; [|apply Hj; auto].
    destruct (E3 v eq_refl) as [->|[m ->]]; [auto|apply Hj; eauto].
  - intros v Hv. cbn [jfield] in Hv. rewrite E1 in Hv. injection Hv as <-. exact Ha.
  - intros x Hx. cbn [jfield] in Hx. rewrite E2 in Hx. injection Hx as <-. exact Hs.
Qed.

(** Discriminator(nl::json). *)
Definition files_ok (f : fs) : Prop := forall name c, fs_read f name = Some c -> len c <= INT_MAX /\ (U UBIndex \/ well_cut c).
Definition starts (pre : str) : Prop := pre = [] \/ exists a, pre = a ++ ["."%char].
Lemma seg_of pre p r : len (pre ++ p ++ r) <= INT_MAX -> starts pre -> (r = [] \/ exists r', r = "."%char :: r') -> "."%char ∉ p ->
  U UBIndex \/ well_cut (pre ++ p ++ r) -> seg_ok p.
Proof.
  intros Hl Hp Hr Hd Hu. rewrite !len_app in Hl. pose proof (len_nonneg pre). pose proof (len_nonneg r). split; [exact Hd|]. split; [lia|].
  destruct Hu as [Hu|Hu]; [left; exact Hu|right]. intros H6. apply (Hu p); [|exact H6]. split; [exact Hd|]. exists pre, r. auto.
Qed.
Section rams.
Variables (f : fs) (iz base : json).
Hypothesis Hi : int_ok base.
Hypothesis Hb : U UBOverflow \/ base_ok base.
Let rbase := jobject [(lit "ignoreZero", iz); (lit "base", base)].
Lemma file_fine c : len c <= INT_MAX -> U UBIndex \/ well_cut c ->
  forall mapping pre content eof, Forall (fun v => gt v \/ exists f, v = JFloat f) mapping -> c = pre ++ content -> starts pre ->
  fine U (rams_of_file f rbase mapping content eof).
Proof.
  intros Hl Hu. induction mapping as [|m mapping IH]; intros pre content eof Hm Hc Hp; [exact I|]. apply Forall_cons in Hm as [Hm Hms].
  cbn [rams_of_file]. destruct eof; [exact I|]. destruct (split_dot content) as [Hn|(p & r & -> & Hn)].
  - rewrite getline_end by exact Hn. apply fine_bind.
    { apply parts_fine; [exact Hi|exact Hb|exact Hm|]. apply (seg_of pre content []); [rewrite app_nil_r, <- Hc; exact Hl|exact Hp|left; reflexivity|exact Hn|rewrite app_nil_r, <- Hc; exact Hu]. }
    intros r0 _. apply fine_bind; [|intros; exact I]. destruct mapping; exact I.
  - rewrite getline_app by exact Hn. apply fine_bind.
    { apply parts_fine; [exact Hi|exact Hb|exact Hm|]. apply (seg_of pre p ("."%char :: r)); [rewrite <- Hc; exact Hl|exact Hp|right; exists r; reflexivity|exact Hn|rewrite <- Hc; exact Hu]. }
    intros r0 _. apply fine_bind; [|intros; exact I]. apply (IH (pre ++ p ++ ["."%char])); [exact Hms| |].
    + subst. rewrite <- !app_assoc. reflexivity.
    + right. exists (pre ++ p). rewrite app_assoc. reflexivity.
Qed.
Lemma data_fine c : len c <= INT_MAX - 1 -> U UBIndex \/ well_cut c ->
  forall mapping pre content, Forall (fun v => gt v \/ exists f, v = JFloat f) mapping -> c = pre ++ content -> starts pre ->
  fine U (rams_of_data f rbase mapping c (len pre)).
Proof.
  intros Hl Hu. induction mapping as [|m mapping IH]; intros pre content Hm Hc Hp; [exact I|]. apply Forall_cons in Hm as [Hm Hms].
  assert (Hlp : len pre + len content = len c) by (subst; rewrite len_app; reflexivity). pose proof (len_nonneg pre). pose proof (len_nonneg content).
  cbn [rams_of_data]. destruct (split_dot content) as [Hn|(p & r & -> & Hn)].
  - assert (Ef : s32 (find_char "." c (len pre)) = -1).
    { rewrite Hc, find_char_none by (auto; unfold W64, INT_MAX in *; lia). reflexivity. }
    rewrite Ef. rewrite Hc at 1. rewrite substr_rest; [|rewrite <- Hc; unfold W64, INT_MAX in *; lia|].
    2:{ rewrite <- Hc. assert (E : u64 (-1 - len pre) = -1 - len pre + W64) by (unfold u64; symmetry; apply (Z.mod_unique_pos _ _ (-1)); unfold W64, INT_MAX in *; lia).
        rewrite E. unfold W64, INT_MAX in *; lia. }
    cbn [rbind]. change (int_of (-1 + 1)) with (Ok 0). cbn [rbind]. apply fine_bind.
    { apply parts_fine; [exact Hi|exact Hb|exact Hm|]. apply (seg_of pre content []); [rewrite app_nil_r, <- Hc; lia|exact Hp|left; reflexivity|exact Hn|rewrite app_nil_r, <- Hc; exact Hu]. }
    intros r0 _. apply fine_bind; [|intros; exact I]. apply (IH [] c); [exact Hms|reflexivity|left; reflexivity].
  - rewrite len_app, len_cons in *. pose proof (len_nonneg p). pose proof (len_nonneg r).
    assert (Ef : s32 (find_char "." c (len pre)) = len pre + len p).
    { rewrite Hc, find_char_app by (auto; unfold W64, INT_MAX in *; lia). apply s32_id. unfold INT_MIN, INT_MAX in *; lia. }
    rewrite Ef. replace (len pre + len p - len pre) with (len p) by lia. rewrite Hc at 1. rewrite substr_mid by (rewrite <- Hc; unfold W64, INT_MAX in *; lia). cbn [rbind].
    assert (Ei : int_of (len pre + len p + 1) = Ok (len (pre ++ p ++ ["."%char]))).
    { rewrite !len_app. change (len ["."%char]) with 1. unfold int_of. assert (E : in_int (len pre + len p + 1) = true) by (unfold in_int, INT_MIN, INT_MAX in *; lia). rewrite E. f_equal. lia. }
    rewrite Ei. cbn [rbind]. apply fine_bind.
    { apply parts_fine; [exact Hi|exact Hb|exact Hm|]. apply (seg_of pre p ("."%char :: r)); [rewrite <- Hc; lia|exact Hp|right; exists r; reflexivity|exact Hn|rewrite <- Hc; exact Hu]. }
    intros r0 _. apply fine_bind; [|intros; exact I]. apply (IH (pre ++ p ++ ["."%char]) r); [exact Hms| |].
    + subst. rewrite <- !app_assoc. reflexivity.
    + right. exists (pre ++ p). rewrite app_assoc. reflexivity.
Qed.
Lemma setRAMs_fine mapping data : gt mapping -> files_ok f -> len data <= INT_MAX - 1 -> U UBIndex \/ well_cut data -> fine U (setRAMsData f mapping rbase data).
Proof.
  intros Hm Hf Hl Hu. unfold setRAMsData. apply fine_bind; [unfold has_suffix; apply fine_bind; [apply substr_fine|intros; exact I]|].
  intros isfile _. pose proof (gt_values _ Hm) as Hv. destruct isfile.
  - destruct (fs_read f data) as [c|] eqn:E; [|exact I]. destruct (Hf _ _ E) as [H1 H2]. apply (file_fine c H1 H2 _ [] c); [exact Hv|reflexivity|left; reflexivity].
  - apply (data_fine data Hl Hu _ [] data); [exact Hv|reflexivity|left; reflexivity].
Qed.
End rams.

Lemma disc_fine f j : files_ok f -> gt j -> fine U (disc_of_json f j).
Proof.
  intros Hf Hj. unfold disc_of_json.
  apply fine_bind; [apply field_fine|]. intros v1 H1. apply (gt_field _ _ _ Hj) in H1; [|discriminate]. apply fine_bind; [apply int_fine, gt_int, H1|]. intros es _.
  apply fine_bind; [apply field_fine|]. intros v2 H2. apply (gt_field _ _ _ Hj) in H2; [|discriminate]. apply fine_bind; [apply int_fine, gt_int, H2|]. intros cnt _.
  apply fine_bind; [apply field_fine|]. intros v3 H3. apply fine_bind; [apply str_fine|]. intros data Hd.
  destruct v3; try discriminate. injection Hd as ->. pose proof (gt_data _ _ Hj H3) as Hw. apply (gt_field _ _ _ Hj) in H3; [|discriminate]. inversion H3 as [| | | |? Hl| |]; subst.
  apply fine_bind; [apply field_fine|]. intros mapping Hm. apply (gt_field _ _ _ Hj) in Hm; [|discriminate].
  apply fine_bind; [apply field_fine|]. intros iz _. apply fine_bind; [apply field_fine|]. intros base Hb. pose proof (gt_base _ _ Hj Hb) as Hb'.
  apply (gt_field _ _ _ Hj) in Hb; [|discriminate]. cbv zeta.
  apply fine_bind; [|intros; exact I]. apply setRAMs_fine; try assumption. apply gt_int, Hb.
Qed.

(** merge_patch with an object of plain values. *)
Definition plain (v : json) : Prop := match v with JBool _ | JInt _ | JFloat _ => True | _ => False end.
Lemma jinsert_mem k v (l : list (str * json)) x : x ∈ jinsert k v l -> x = (k, v) \/ x ∈ l.
Proof.
  induction l as [|[k' v'] l IH]; cbn [jinsert]; [intros H; apply elem_of_list_singleton in H; auto|].
  destruct (decide (k = k')); [intros H; apply elem_of_cons in H as [H|H]; [auto|right; right; exact H]|].
  destruct (str_leb k k'); intros H; apply elem_of_cons in H as [H|H]; auto; [subst; right; left|].
  destruct (IH H) as [H'|H']; [auto|right; right; exact H'].
Qed.
Lemma gt_insert k v l : gt (JObj l) -> gt v \/ k = lit "minScore" /\ (exists f, v = JFloat f) ->
  (forall s, k = lit "data" -> v <> JStr s) -> (k = lit "base" -> U UBOverflow \/ base_ok v) -> gt (JObj (jinsert k v l)).
Proof.
  intros Hl Hv Hd Hb. inversion Hl as [| | | | | |? H1 H2 H3]; subst. rewrite Forall_forall in H1. constructor.
  - apply Forall_forall. intros x Hx. apply jinsert_mem in Hx as [->|Hx]; [exact Hv|exact (H1 _ Hx)].
  - intros s Hx. apply jinsert_mem in Hx as [Hx|Hx]; [injection Hx as <- <-; exfalso; exact (Hd s eq_refl eq_refl)|exact (H2 _ Hx)].
  - intros x Hx. apply jinsert_mem in Hx as [Hx|Hx]; [injection Hx as <- <-; exact (Hb eq_refl)|exact (H3 _ Hx)].
Qed.
Definition patch_ok (pl : list (str * json)) : Prop :=
  Forall (fun kv => plain kv.2 /\ (gt kv.2 \/ kv.1 = lit "minScore" /\ exists f, kv.2 = JFloat f) /\ (kv.1 = lit "base" -> U UBOverflow \/ base_ok kv.2)) pl.
Lemma gt_merge t pl : gt t -> patch_ok pl -> gt (merge_patch t (JObj pl)).
Proof.
  intros Ht Hp. cbn [merge_patch].
  assert (Ht' : gt (JObj (match t with JObj tl => tl | _ => [] end))).
  { assert (H0 : gt (JObj [])) by (apply Gt_obj; [apply Forall_nil; exact I|intros s Hs; inversion Hs|intros s Hs; inversion Hs]). destruct t; first [exact H0|exact Ht]. }
  revert Ht'. generalize (match t with JObj tl => tl | _ => [] end). clear t Ht. induction pl as [|[k v] pl IH]; intros tl Ht; [exact Ht|].
  apply Forall_cons in Hp as [(Hpl & Hg & Hb) Hp]. cbn [fst snd] in *.
  assert (Hg' : gt (JObj (jinsert k v tl))). { apply gt_insert; auto. intros s _ ->. exact Hpl. }
  destruct v; try contradiction; exact (IH Hp _ Hg').
Qed.

(** Wisard(std::string), Cluster(nl::json), ClusWisard(std::string). *)
Definition ok_base (z : Z) : Prop := U UBOverflow \/ z = 0 \/ z = 1 \/ z = 2 \/ z = b.
Definition in32 (z : Z) : Prop := INT_MIN <= z <= INT_MAX.
Lemma base_read_ok v z : (U UBOverflow \/ base_ok v) -> jget_int v = Ok z -> ok_base z.
Proof. intros [H|H] E; [left; exact H|right; exact (H _ E)]. Qed.
Lemma opt_base_ok o z : gt o -> jopt jget_int 2 o (lit "base") = Ok z -> ok_base z.
Proof.
  intros Ho E. unfold jopt in E. destruct (jfield o (lit "base")) as [v| | |] eqn:Ev; cbn [rbind] in E; try discriminate.
  pose proof (gt_base _ _ Ho Ev) as Hv. destruct v; try (exact (base_read_ok _ _ Hv E)). injection E as <-. right. auto.
Qed.
Lemma trunc_s32 z : in_int z = true -> s32 z = z.
Proof. unfold in_int. intros H. apply s32_id. lia. Qed.
Lemma get_int_range v z : jget_int v = Ok z -> s32 z = z.
Proof.
  destruct v as [|x|y|f|s|l|l]; cbn; try discriminate.
  - intros [= <-]. destruct x; reflexivity.
  - intros [= <-]. apply s32_id, s32_range.
  - destruct (f32_trunc f) as [y|]; [|discriminate]. destruct (in_int y) eqn:E; [|discriminate]. intros [= <-]. apply trunc_s32, E.
Qed.
Lemma opt_int_range d o k z : s32 d = d -> jopt jget_int d o k = Ok z -> s32 z = z.
Proof.
  intros Hd E. unfold jopt in E. destruct (jfield o k) as [v| | |]; cbn [rbind] in E; try discriminate.
  destruct v; try (exact (get_int_range _ _ E)). injection E as <-. exact Hd.
Qed.
Lemma int_base_ok z : s32 z = z -> ok_base z -> U UBOverflow \/ base_ok (JInt z).
Proof. intros Hz [H|H]; [left; exact H|right]. intros y [= <-]. rewrite Hz. exact H. Qed.
Lemma disc_patch iz z : s32 z = z -> ok_base z -> exists pl, jobject [(lit "ignoreZero", JBool iz); (lit "base", JInt z)] = JObj pl /\ patch_ok pl.
Proof.
  intros Hz Hb. pose proof (int_base_ok _ Hz Hb) as HB. exists [(lit "base", JInt z); (lit "ignoreZero", JBool iz)]. split; [vm_compute; reflexivity|].
  repeat (apply Forall_cons; split); [..|apply Forall_nil; exact I]; cbn [fst snd]; (split; [exact I|]); (split; [left; constructor|]); first [intros; exact HB|discriminate].
Qed.
Lemma load_classes_fine f pl l : files_ok f -> patch_ok pl -> Forall (fun kv => gt kv.2 \/ kv.1 = lit "minScore" /\ exists f, kv.2 = JFloat f) l ->
  forall m, fine U (load_classes f (JObj pl) l m).
Proof.
  intros Hf Hp. induction 1 as [|[k d] l Hd _ IH]; intros m; [exact I|]. cbn [load_classes]. apply fine_bind; [|intros; apply IH].
  apply disc_fine; [exact Hf|]. cbn in Hd. destruct Hd as [Hd|[_ [x ->]]]; [apply gt_merge; assumption|].
  change (merge_patch (JFloat x) (JObj pl)) with (merge_patch JNull (JObj pl)). apply gt_merge; [constructor|assumption].
Qed.
Lemma gt_members j l : gt j -> jmembers j = Ok l -> Forall (fun kv => gt kv.2 \/ kv.1 = lit "minScore" /\ exists f, kv.2 = JFloat f) l.
Proof. intros Hj E. destruct Hj as [| | | | |[|x l'] H1 H2 H3|l' H1 H2 H3]; cbn in E; try discriminate; injection E as <-; try constructor. exact H1. Qed.
Ltac opt Hc := apply fine_bind; [apply opt_fine; let v := fresh "v" in let Hv := fresh "Hv" in intros v Hv;
  first [apply bool_fine|apply float_fine|apply (gt_field _ _ _ Hc) in Hv; [|discriminate];
    first [apply int_fine, gt_int, Hv|apply uint_fine, gt_int, Hv|apply mappings_fine, Hv|apply ints_fine, Hv]]|].
Lemma wisard_options_fine n c : gt c -> fine U (wisard_of_options n c).
Proof. intros Hc. unfold wisard_of_options. do 12 (opt Hc; intros ? _). exact I. Qed.
Lemma wisard_options_base n c w : gt c -> wisard_of_options n c = Ok w -> ok_base (w_base w) /\ s32 (w_base w) = w_base w.
Proof.
  intros Hc E. unfold wisard_of_options in E.
  repeat match type of E with (let* _ := ?m in _) = Ok _ => let e := fresh "e" in destruct m eqn:e; cbn [rbind] in E; try discriminate end.
  injection E as <-. cbn [w_base]. split; [eapply opt_base_ok|eapply opt_int_range]; try eassumption. reflexivity.
Qed.
Lemma wisard_fine f c : files_ok f -> gt c -> fine U (wisard_of_json f c).
Proof.
  intros Hf Hc. unfold wisard_of_json. apply fine_bind; [apply wisard_options_fine, Hc|]. intros w Hw. apply wisard_options_base in Hw as [Hb Hr]; [|exact Hc].
  apply fine_bind; [apply field_fine|]. intros v1 H1. apply (gt_field _ _ _ Hc) in H1; [|discriminate]. apply fine_bind; [apply int_fine, gt_int, H1|]. intros n _.
  apply fine_bind; [apply field_fine|]. intros cl Hcl. apply (gt_field _ _ _ Hc) in Hcl; [|discriminate]. cbv zeta.
  apply fine_bind; [apply members_fine|]. intros ms Hms. destruct (disc_patch (w_ignoreZero w) (w_base w) Hr Hb) as (pl & -> & Hp).
  apply fine_bind; [|intros; exact I]. apply load_classes_fine; [exact Hf|exact Hp|exact (gt_members _ _ Hcl Hms)].
Qed.
Lemma load_discs_fine f pl l : files_ok f -> patch_ok pl -> Forall (fun v => gt v \/ exists f, v = JFloat f) l -> fine U (load_discs f (JObj pl) l).
Proof.
  intros Hf Hp. induction 1 as [|d l Hd _ IH]; [exact I|]. cbn [load_discs]. apply fine_bind; [|intros; apply fine_bind; [exact IH|intros; exact I]].
  apply disc_fine; [exact Hf|]. destruct Hd as [Hd|[x ->]]; [apply gt_merge; assumption|].
  change (merge_patch (JFloat x) (JObj pl)) with (merge_patch JNull (JObj pl)). apply gt_merge; [constructor|assumption].
Qed.
Lemma cluster_fine f o : files_ok f -> gt o -> fine U (cluster_of_json f o).
Proof.
  intros Hf Ho. unfold cluster_of_json. do 7 (opt Ho; intros ? _). opt Ho. intros base Hb. cbv zeta.
  apply fine_bind; [apply field_fine|]. intros dc Hdc. apply (gt_field _ _ _ Ho) in Hdc; [|discriminate].
  destruct (disc_patch a4 base) as (pl & -> & Hp); [apply (opt_int_range 2 _ _ _ eq_refl Hb)|exact (opt_base_ok _ _ Ho Hb)|].
  apply fine_bind; [|intros; exact I]. apply load_discs_fine; [exact Hf|exact Hp|apply gt_values, Hdc].
Qed.
Lemma load_clusters_fine f pl l : files_ok f -> patch_ok pl -> Forall (fun kv => gt kv.2 \/ kv.1 = lit "minScore" /\ exists f, kv.2 = JFloat f) l ->
  forall m, fine U (load_clusters f (JObj pl) l m).
Proof.
  intros Hf Hp. induction 1 as [|[k d] l Hd _ IH]; intros m; [exact I|]. cbn [load_clusters]. apply fine_bind; [|intros; apply IH].
  apply cluster_fine; [exact Hf|]. cbn in Hd. destruct Hd as [Hd|[_ [x ->]]]; [apply gt_merge; assumption|].
  change (merge_patch (JFloat x) (JObj pl)) with (merge_patch JNull (JObj pl)). apply gt_merge; [constructor|assumption].
Qed.
Lemma clus_options_fine n m t l c : gt c -> fine U (clus_of_options n m t l c).
Proof.
  intros Hc. unfold clus_of_options. do 10 (opt Hc; intros ? _). apply fine_bind; [|intros; exact I].
  unfold checkConfigInputs. repeat match goal with |- fine U (if ?x then _ else _) => destruct x end; exact I.
Qed.
Lemma clus_options_base n m t l c k : gt c -> clus_of_options n m t l c = Ok k -> ok_base (k_base k) /\ s32 (k_base k) = k_base k.
Proof.
  intros Hc E. unfold clus_of_options in E.
  repeat match type of E with (let* _ := ?m in _) = Ok _ => let e := fresh "e" in destruct m eqn:e; cbn [rbind] in E; try discriminate end.
  injection E as <-. cbn [k_base]. split; [eapply opt_base_ok|eapply opt_int_range]; try eassumption. reflexivity.
Qed.
Lemma clus_fine f c : files_ok f -> gt c -> fine U (clus_of_json f c).
Proof.
  intros Hf Hc. unfold clus_of_json. apply fine_bind; [apply clus_options_fine, Hc|]. intros k Hk. apply clus_options_base in Hk as [Hb Hr]; [|exact Hc].
  apply fine_bind; [apply field_fine|]. intros v1 H1. apply (gt_field _ _ _ Hc) in H1; [|discriminate]. apply fine_bind; [apply int_fine, gt_int, H1|]. intros n _.
  apply fine_bind; [apply field_fine|]. intros v2 _. apply fine_bind; [apply float_fine|]. intros ms _.
  apply fine_bind; [apply field_fine|]. intros v3 H3. apply (gt_field _ _ _ Hc) in H3; [|discriminate]. apply fine_bind; [apply int_fine, gt_int, H3|]. intros t _.
  apply fine_bind; [apply field_fine|]. intros v4 H4. apply (gt_field _ _ _ Hc) in H4; [|discriminate]. apply fine_bind; [apply int_fine, gt_int, H4|]. intros l _. cbv zeta.
  set (patch := jobject _). assert (Hp : exists pl, patch = JObj pl /\ patch_ok pl).
  { eexists. split; [vm_compute; reflexivity|]. pose proof (int_base_ok _ Hr Hb) as HB.
    repeat (apply Forall_cons; split); [..|apply Forall_nil; exact I]; cbn [fst snd]; (split; [exact I|]); (split; [first [left; constructor; fail|right; split; [reflexivity|eexists; reflexivity]]|]);
    first [intros; exact HB|discriminate]. }
  clearbody patch. destruct Hp as (pl & -> & Hp).
  apply fine_bind; [apply field_fine|]. intros cl Hcl. apply (gt_field _ _ _ Hc) in Hcl; [|discriminate].
  apply fine_bind.
  { assert (H0 : fine U (let* ms := jmembers cl in load_clusters f (JObj pl) ms ∅)).
    { apply fine_bind; [apply members_fine|]. intros mm Hm. apply load_clusters_fine; [exact Hf|exact Hp|exact (gt_members _ _ Hcl Hm)]. }
    destruct cl; first [exact I|exact H0]. }
  intros cs _. apply fine_bind; [apply field_fine|]. intros uc Huc. apply (gt_field _ _ _ Hc) in Huc; [|discriminate].
  apply fine_bind; [|intros; exact I].
  assert (H0 : fine U (cluster_of_json f (merge_patch uc (JObj pl)))) by (apply cluster_fine; [exact Hf|apply gt_merge; assumption]).
  destruct uc; first [exact I|exact H0].
Qed.
End fine.

(** Parsing a text yields a value no larger than the text. *)
Lemma utf8_bytes_short4 cp : (length (utf8_bytes cp) <= 4)%nat.
Proof. unfold utf8_bytes. repeat match goal with |- context [if ?x then _ else _] => destruct x end; cbn; lia. Qed.
Lemma scan_string_short : forall n s t r, (length s <= n)%nat -> scan_string s = Some (t, r) -> (length t + length r < length s)%nat.
Proof.
  induction n as [|n IH]; intros s t r Hn H; (destruct s as [|c s1]; [discriminate|]); cbn [length] in *; [lia|].
  cbn [scan_string] in H. destruct_scan H; try (injection H as <- <-; cbn; lia).
  all: apply emit_some in H as (t' & H & ->); apply IH in H; rewrite ?app_length; cbn [length] in *; try lia.
  all: repeat match goal with |- context [utf8_bytes ?cp] => pose proof (utf8_bytes_short4 cp); generalize dependent (utf8_bytes cp); intros end; cbn [length] in *; lia.
Qed.
Definition short_token (n : nat) (t : token) : Prop := forall x, t = TString x -> (length x <= n)%nat.
Lemma scan_literal_result w : forall s t t' s', scan_literal w s t = (t', s') -> t' = t \/ t' = TError.
Proof.
  induction w as [|c w IH]; intros s t t' s' H; cbn [scan_literal] in H; [injection H as <- <-; auto|].
  destruct s as [|c' s]; [injection H as <- <-; auto|]. destruct (decide (c' = c)); [exact (IH _ _ _ _ H)|injection H as <- <-; auto].
Qed.
Lemma scan_short T s t s' : scan T s = (t, s') -> short_token (length s) t.
Proof.
  intros H. unfold scan in H. pose proof (skip_space_len s) as Hs. destruct (skip_space s) as [|c s1]; [injection H as <- <-; intros x [=]|].
  cbn [length] in Hs. cbv zeta in H.
  repeat match type of H with (if ?b then _ else _) = _ => destruct b end; try (injection H as <- <-; intros x [=]; fail).
  1-3: apply scan_literal_result in H as [-> | ->]; intros x [=].
  - destruct (scan_string s1) as [[x r]|] eqn:E; injection H as <- <-; [|intros x [=]]. apply (scan_string_short (length s1)) in E; [|lia].
    intros y [= <-]. lia.
  - unfold scan_number in H. destruct (scan_digits _ _ s1) as [[[b ty] r]|] eqn:E; [|injection H as <- <-; intros x [=]].
    injection H as <- <-. intros x Hx. destruct ty; repeat match type of Hx with (if ?b then _ else _) = _ => destruct b end; discriminate.
Qed.
Lemma short_token_mono n m t : (n <= m)%nat -> short_token n t -> short_token m t.
Proof. intros H Ht x E. specialize (Ht x E). lia. Qed.
Lemma jemplace_short n k v l : short n v -> Forall (fun kv => short n kv.2) l -> Forall (fun kv => short n kv.2) (jemplace k v l).
Proof. intros Hv Hl. unfold jemplace. destruct (assoc k l); [exact Hl|]. apply jinsert_forall; assumption. Qed.
Lemma parse_short T n : forall fuel,
  (forall t s v s', short_token n t -> (length s <= n)%nat -> parse_value T fuel t s = Ok (v, s') -> short (Z.of_nat n) v /\ (length s' <= length s)%nat) /\
  (forall acc t s v s', (length s <= n)%nat -> Forall (fun kv => short (Z.of_nat n) kv.2) acc -> parse_members T fuel acc t s = Ok (v, s') -> short (Z.of_nat n) v /\ (length s' <= length s)%nat) /\
  (forall acc t s v s', short_token n t -> (length acc + length s <= n)%nat -> Forall (short (Z.of_nat n)) acc -> parse_elements T fuel acc t s = Ok (v, s') -> short (Z.of_nat n) v /\ (length s' <= length s)%nat).
Proof.
  induction fuel as [|fuel (IHv & IHm & IHe)]; [repeat split; intros; discriminate|]. split; [|split].
  - intros t s v s' Ht Hs H. destruct t as [| | | | | | | | |x| | | |]; cbn [parse_value] in H; try discriminate;
      try (injection H as <- <-; split; [constructor|lia]; fail).
    + destruct (scan T s) as [t1 s1] eqn:E. pose proof (scan_short _ _ _ _ E) as Hsh. apply scan_len in E as [L G]. apply (short_token_mono _ n) in Hsh; [|lia].
      assert (Hn : t1 = TEndArray \/ parse_elements T fuel [] t1 s1 = Ok (v, s')) by (destruct t1; auto).
      destruct Hn as [->|Hn]; [injection H as <- <-; split; [constructor; [unfold len; cbn; lia|constructor]|lia]|].
      apply IHe in Hn as [H1 H2]; [split; [exact H1|lia]|exact Hsh|cbn; lia|constructor].
    + destruct (scan T s) as [t1 s1] eqn:E. apply scan_len in E as [L G].
      assert (Hn : t1 = TEndObject \/ parse_members T fuel [] t1 s1 = Ok (v, s')) by (destruct t1; auto).
      destruct Hn as [->|Hn]; [injection H as <- <-; split; [constructor; constructor|lia]|].
      apply IHm in Hn as [H1 H2]; [split; [exact H1|lia]|lia|constructor].
    + injection H as <- <-. split; [|lia]. constructor. unfold len. specialize (Ht x eq_refl). lia.
    + destruct (f32_finite f); [|discriminate]. injection H as <- <-. split; [constructor|lia].
  - intros acc t s v s' Hs Ha H. cbn [parse_members] in H. destruct t as [| | | | | | | | |k| | | |]; try discriminate.
    destruct (scan T s) as [t1 s1] eqn:E1. apply scan_len in E1 as [L1 _]. destruct t1; try discriminate. destruct (scan T s1) as [t2 s2] eqn:E2.
    pose proof (scan_short _ _ _ _ E2) as Hsh. apply scan_len in E2 as [L2 _]. apply (short_token_mono _ n) in Hsh; [|lia].
    destruct (parse_value T fuel t2 s2) as [[w s3]| | |] eqn:Ev; cbn [rbind] in H; try discriminate. apply IHv in Ev as [Hw L3]; [|exact Hsh|lia].
    pose proof (jemplace_short _ k w acc Hw Ha) as Ha'. destruct (scan T s3) as [t3 s4] eqn:E3. apply scan_len in E3 as [L4 _].
    destruct t3; try discriminate; [injection H as <- <-; split; [constructor; exact Ha'|lia]|].
    destruct (scan T s4) as [t4 s5] eqn:E4. apply scan_len in E4 as [L5 _]. apply IHm in H as [H1 H2]; [split; [exact H1|lia]|lia|exact Ha'].
  - intros acc t s v s' Ht Hs Ha H. cbn [parse_elements] in H.
    destruct (parse_value T fuel t s) as [[w s3]| | |] eqn:Ev; cbn [rbind] in H; try discriminate. apply IHv in Ev as [Hw L3]; [|exact Ht|lia].
    assert (Ha' : Forall (short (Z.of_nat n)) (acc ++ [w])) by (apply Forall_app; auto).
    destruct (scan T s3) as [t3 s4] eqn:E3. apply scan_len in E3 as [L4 G4].
    destruct t3; try discriminate; specialize (G4 I); [injection H as <- <-; split; [constructor; [unfold len; rewrite app_length; cbn; lia|exact Ha']|lia]|].
    destruct (scan T s4) as [t4 s5] eqn:E4. pose proof (scan_short _ _ _ _ E4) as Hsh. apply scan_len in E4 as [L5 _]. apply (short_token_mono _ n) in Hsh; [|lia].
    apply IHe in H as [H1 H2]; [split; [exact H1|lia]|exact Hsh|rewrite app_length; cbn; lia|exact Ha'].
Qed.
Theorem json_parse_short T text j : json_parse T text = Ok j -> short (len text) j.
Proof.
  intros H. unfold json_parse in H. pose proof (skip_bom_len text). destruct (scan T (skip_bom text)) as [t s] eqn:E.
  pose proof (scan_short _ _ _ _ E) as Hsh. apply scan_len in E as [L _]. apply (short_token_mono _ (length text)) in Hsh; [|lia].
  destruct (parse_value T (2 * length text + 2) t s) as [[v s1]| | |] eqn:Ev; cbn [rbind] in H; try discriminate.
  destruct (scan T s1) as [t1 s2]. destruct t1; try discriminate. injection H as <-.
  apply (proj1 (parse_short T (length text) _)) in Ev as [Hv _]; [exact Hv|exact Hsh|lia].
Qed.

(** From the specification to [gt]. *)
Definition all_kinds (u : ub) : Prop := u = UBIndex \/ u = UBOverflow \/ u = UBCast.
Lemma gt_all n j : n <= INT_MAX - 1 -> short n j -> gt all_kinds 2 j.
Proof.
  intros Hn. revert j. fix IH 1. intros j Hj. destruct j as [|x|z|f|s|l|l].
  - constructor.
  - constructor.
  - constructor.
  - constructor. left. right. right. reflexivity.
  - constructor. inversion Hj. lia.
  - assert (Hl : len l <= n) by (inversion Hj; assumption). assert (Hf : Forall (short n) l) by (inversion Hj; assumption). clear Hj.
    constructor; [lia|left; right; left; reflexivity|]. clear Hl. induction l as [|x l IHl]; constructor; inversion Hf; subst; auto.
  - assert (Hf : Forall (fun kv => short n kv.2) l) by (inversion Hj; assumption). clear Hj.
    constructor; [|intros; left; left; reflexivity|intros; left; right; left; reflexivity].
    induction l as [|[k v] l IHl]; constructor; inversion Hf; subst; auto.
Qed.
Lemma gt_none b n j : INT_MIN <= b <= INT_MAX -> n <= INT_MAX - 1 -> short n j -> tame b j -> gt (fun _ => False) b j.
Proof.
  intros Hb Hn. revert j. fix IH 1. intros j Hj Ht. destruct j as [|x|z|f|s|l|l].
  - constructor.
  - constructor.
  - constructor.
  - constructor. right. inversion Ht. assumption.
  - constructor. inversion Hj. lia.
  - assert (Hl : len l <= n) by (inversion Hj; assumption). assert (Hf : Forall (short n) l) by (inversion Hj; assumption).
    assert (Hg : fits b (len l)) by (inversion Ht; assumption). assert (Hf' : Forall (tame b) l) by (inversion Ht; assumption). clear Hj Ht.
    constructor; [lia|right; exact Hg|]. clear Hl Hg. induction l as [|x l IHl]; constructor; inversion Hf; inversion Hf'; subst; auto.
  - assert (Hf : Forall (fun kv => short n kv.2) l) by (inversion Hj; assumption).
    assert (H : Forall (fun kv => tame b kv.2 \/ kv.1 = lit "minScore" /\ exists f, kv.2 = JFloat f) l /\
      (forall s, (lit "data", JStr s) ∈ l -> well_cut s) /\
      (forall v, (lit "base", v) ∈ l -> v = JInt b \/ (forall z, v <> JInt z) /\ (forall f, v <> JFloat f))) by (inversion Ht; auto).
    clear Hj Ht. destruct H as (H1 & H2 & H3).
    constructor; [|intros s Hs; right; exact (H2 s Hs)|intros v Hv; right; destruct (H3 v Hv) as [->|[N1 N2]]].
    + clear H2 H3. induction l as [|[k v] l IHl]; constructor; inversion Hf; inversion H1; subst; auto. cbn in *. intuition auto.
    + intros z [= <-]. rewrite s32_id by exact Hb. auto.
    + intros z Hz. destruct v as [|x|y|f|s|l'|l']; try discriminate; [|exfalso; exact (N1 y eq_refl)|exfalso; exact (N2 f eq_refl)].
      injection Hz as <-. destruct x; auto.
Qed.

(** Cutting at the dots by computation. *)
Fixpoint cut (s : str) : list str :=
  match s with
  | [] => [[]]
  | c :: s' => if decide (c = "."%char) then [] :: cut s' else match cut s' with p :: ps => (c :: p) :: ps | [] => [[c]] end
  end.
Lemma cut_app a b : "."%char ∉ a -> cut (a ++ "."%char :: b) = a :: cut b.
Proof.
  induction a as [|c a IH]; intros H; [reflexivity|]. cbn [app cut]. rewrite decide_False by (intros ->; apply H; left).
  rewrite IH by (intros Hi; apply H; right; exact Hi). reflexivity.
Qed.
Lemma cut_end a : "."%char ∉ a -> cut a = [a].
Proof.
  induction a as [|c a IH]; intros H; [reflexivity|]. cbn [cut]. rewrite decide_False by (intros ->; apply H; left).
  rewrite IH by (intros Hi; apply H; right; exact Hi). reflexivity.
Qed.
Lemma piece_cut p s : piece_of p s -> p ∈ cut s.
Proof.
  intros (Hp & a & b & -> & Ha & Hb). assert (Hq : p ∈ cut (p ++ b)).
  { destruct Hb as [->|[b' ->]]; [rewrite app_nil_r, cut_end by exact Hp; left|rewrite cut_app by exact Hp; left]. }
  destruct Ha as [->|[a' ->]]; [exact Hq|]. rewrite <- app_assoc. cbn [app]. generalize dependent (p ++ b). clear Hp Hb b. intros r Hr.
  remember (length a') as n eqn:En. assert (Hn : (length a' <= n)%nat) by lia. clear En. revert a' Hn. induction n as [|n IH]; intros a' Hn.
  - destruct a' as [|c a']; [|cbn in Hn; lia]. cbn [app cut]. rewrite decide_True by reflexivity. right. exact Hr.
  - destruct (split_dot a') as [Hd|(x & y & -> & Hd)]; [rewrite cut_app by exact Hd; right; exact Hr|].
    rewrite <- app_assoc. cbn [app]. rewrite cut_app by exact Hd. right. apply IH. rewrite app_length in Hn. cbn in Hn. lia.
Qed.
Lemma well_cut_by_cut s : forallb (fun p => (len p <? 6) || (len p mod 4 =? 0)) (cut s) = true -> well_cut s.
Proof.
  intros H p Hp H6. rewrite forallb_forall in H. apply piece_cut, elem_of_list_In in Hp. specialize (H p Hp). cbv beta in H. lia.
Qed.
