(** Property theorems C144 and C145: progress output and the reporting options. *)
From Verif Require Import Prelude Bytes Utils Float32 BinInput Bleaching DataSet Disc Wisard Cluster ClusWisard Wrapper Verbose.
From Verif Require Import SpecVerbose SpecReporting SpecWisard SpecClus.
From Verif Require Import CtorFacts ClusMore VerboseProofs VerboseSemi Reporting PropsWisard PropsCluster PropsClus.

(** The numbers in a report are decimal: digits only, and they denote the number. *)
Lemma digit_char n : let c := to_char (48 + n mod 10) in c <> to_char 10 /\ Z.of_nat (nat_of_ascii c) - 48 = n mod 10.
Proof.
  cbv zeta. pose proof (Z.mod_pos_bound n 10 ltac:(lia)) as H. set (m := n mod 10) in *. clearbody m.
  assert (m = 0 \/ m = 1 \/ m = 2 \/ m = 3 \/ m = 4 \/ m = 5 \/ m = 6 \/ m = 7 \/ m = 8 \/ m = 9) as K by lia.
  repeat (destruct K as [-> | K]; [split; [discriminate|reflexivity]|]). subst m. split; [discriminate|reflexivity].
Qed.
Definition decimal_value (s : str) : Z := foldl (fun v c => 10 * v + (Z.of_nat (nat_of_ascii c) - 48)) 0 s.
Lemma digits_line fuel : forall n acc, to_char 10 ∉ acc -> to_char 10 ∉ digits_fuel fuel n acc.
Proof.
  induction fuel as [|fuel IH]; intros n acc H; cbn [digits_fuel]; [exact H|]. assert (H' : to_char 10 ∉ to_char (48 + n mod 10) :: acc).
  { apply not_elem_of_cons. split; [|exact H]. intros E. exact (proj1 (digit_char n) (eq_sym E)). }
  destruct (n <? 10); [exact H'|]. apply IH, H'.
Qed.
Lemma digits_value fuel : forall n acc, 0 <= n < 10 ^ Z.of_nat fuel -> (0 < fuel)%nat ->
  decimal_value (digits_fuel fuel n acc) = foldl (fun v c => 10 * v + (Z.of_nat (nat_of_ascii c) - 48)) n acc.
Proof.
  induction fuel as [|fuel IH]; intros n acc Hn Hf; [lia|]. cbn [digits_fuel]. destruct (digit_char n) as [_ Hd]. destruct (Z.ltb_spec n 10).
  - unfold decimal_value. cbn [foldl]. f_equal. rewrite Hd, Z.mod_small by lia. lia.
  - rewrite Nat2Z.inj_succ, Z.pow_succ_r in Hn by lia. assert (0 < fuel)%nat by (destruct fuel; [cbn in Hn; lia|lia]).
    rewrite IH; [|split; [apply Z.div_pos; lia|apply Z.div_lt_upper_bound; lia]|assumption]. cbn [foldl]. f_equal. rewrite Hd. pose proof (Z.div_mod n 10 ltac:(lia)). lia.
Qed.
Lemma report_line what n k : to_char 10 ∉ what -> 0 <= n -> 0 <= k -> to_char 10 ∉ report what n k.
Proof.
  intros Hw Hn Hk. unfold report. unfold Bytes.to_string. rewrite (proj2 (Z.ltb_ge k 0)), (proj2 (Z.ltb_ge n 0)) by lia. rewrite !elem_of_app.
  intros [H|[H|[H|[H|[H|H]]]]].
  - apply elem_of_list_singleton in H. discriminate.
  - contradiction.
  - revert H. apply (bool_decide_eq_false_1 (to_char 10 ∈ lit " ")). vm_compute. reflexivity.
  - revert H. apply digits_line, not_elem_of_nil.
  - revert H. apply (bool_decide_eq_false_1 (to_char 10 ∈ lit " of ")). vm_compute. reflexivity.
  - revert H. apply digits_line, not_elem_of_nil.
Qed.
(** The numbers in the reports are written in decimal. *)
Theorem C144_decimal : forall n, 0 <= n < 10 ^ 20 -> decimal_value (Bytes.to_string n) = n.
Proof. intros n H. unfold Bytes.to_string. rewrite (proj2 (Z.ltb_ge n 0)) by lia. rewrite digits_value; [reflexivity|exact H|lia]. Qed.
Print Assumptions C144_decimal.

(** ** C144: verbose reports the progress of a batch call and ends the line *)
(** False for train(DataSet): the text of a verbose call that succeeds never ends with a line end. *)
Theorem C144_line_end_refuted : forall lhs_first env w ds w' t, w_verbose w = true -> wisard_train_ds_say lhs_first env w ds = ((Ok tt, w'), t) ->
  t = reports (lit "training") (len (ds_data ds)) (length (ds_data ds)) /\ to_char 10 ∉ t.
Proof.
  intros lhs env w ds w' t V E. destruct (train_ds_told lhs env w ds) as (t' & E' & H). rewrite E in E'. injection E' as E' <-. rewrite V, <- E' in H. cbn [told fst] in H. rewrite app_nil_r in H. split; [exact H|]. subst t.
  unfold reports. intros H. apply elem_of_list_In, in_concat in H as (r & H1 & H2). apply elem_of_list_In in H1, H2. apply elem_of_list_fmap in H1 as (i & -> & _). revert H2. apply report_line; [|lia|lia].
  apply (bool_decide_eq_false_1 (to_char 10 ∈ lit "training")). vm_compute. reflexivity.
Qed.
Print Assumptions C144_line_end_refuted.

(** What holds: each call returns what it returns anyway; it writes nothing when verbose is off, all
    reports and (train(DataSet) apart) a line end when it succeeds, and the reports up to the image at
    fault when it fails (nothing if it was refused outright). *)
Theorem C144_wisard_partial : forall lhs_first env w images labels ds,
  (len images <= INT_MAX -> len labels <= INT_MAX ->
   (exists t, wisard_train_say lhs_first env w images labels = (wisard_train lhs_first env w images labels, t) /\
      told (w_verbose w) (lit "training") (length images) line_end
        (fun k => fst (wisard_train lhs_first env w (take k images) (take k labels))) (fst (wisard_train lhs_first env w images labels)) t) /\
   (exists t, leaveMoreOut_say w images labels = (leaveMoreOut w images labels, t) /\
      told (w_verbose w) (lit "untraining") (length images) line_end
        (fun k => fst (leaveMoreOut w (take k images) (take k labels))) (fst (leaveMoreOut w images labels)) t)) /\
  (exists t, wisard_train_ds_say lhs_first env w ds = (wisard_train_ds lhs_first env w ds, t) /\
      told (w_verbose w) (lit "training") (length (ds_data ds)) []
        (fun k => fst (wisard_train_ds lhs_first env w (DataSet (take k (ds_data ds)) (ds_labels ds)))) (fst (wisard_train_ds lhs_first env w ds)) t) /\
  (exists t, wisard_classify_say w images = (wisard_classify w images, t) /\
      told (w_verbose w) (lit "classifying") (length images) line_end (fun k => wisard_classify w (take k images)) (wisard_classify w images) t) /\
  (exists t, py_classify_say w images = (py_classify w images, t) /\
      told (w_verbose w) (lit "classifying") (length images) line_end (fun k => py_classify w (take k images)) (py_classify w images) t).
Proof.
  intros lhs env w images labels ds. split; [intros Hi Hl; split; [exact (train_told lhs env w images labels Hi Hl)|exact (leave_told w images labels Hi Hl)]|].
  split; [exact (train_ds_told lhs env w ds)|]. split; [exact (classify_told (w_verbose w) (lit "classifying") (wisard_classify1 w) images)|exact (py_told w images)].
Qed.
Print Assumptions C144_wisard_partial.
Theorem C144_cluswisard_partial : forall lhs_first env k images labels,
  (len images <= INT_MAX -> len labels <= INT_MAX ->
   exists t, clus_train_say lhs_first env k images labels = (clus_train lhs_first env k images labels, t) /\
      told (k_verbose k) (lit "training") (length images) line_end
        (fun n => fst (clus_train lhs_first env k (take n images) (take n labels))) (fst (clus_train lhs_first env k images labels)) t) /\
  (exists t, clus_classify_say k images = (clus_classify k images, t) /\
      told (k_verbose k) (lit "classifying") (length images) line_end (fun n => clus_classify k (take n images)) (clus_classify k images) t) /\
  (exists t, clus_classifyUnsupervised_say k images = (clus_classifyUnsupervised k images, t) /\
      told (k_verbose k) (lit "classifying unsupervised") (length images) line_end
        (fun n => clus_classifyUnsupervised k (take n images)) (clus_classifyUnsupervised k images) t) /\
  (exists t, py_clus_classify_say k images = (py_clus_classify k images, t) /\
      told (k_verbose k) (lit "classifying") (length images) line_end (fun n => py_clus_classify k (take n images)) (py_clus_classify k images) t).
Proof.
  intros lhs env k images labels. split; [intros Hi Hl; exact (clus_told lhs env k images labels Hi Hl)|].
  split; [exact (classify_told (k_verbose k) (lit "classifying") (clus_classify1 k) images)|].
  split; [exact (classify_told (k_verbose k) (lit "classifying unsupervised") (clus_classifyUnsupervised1 k) images)|exact (py_clus_told k images)].
Qed.
Print Assumptions C144_cluswisard_partial.
(** Semi-supervised training: the first loop reports every image as supervised, the second as many as
    there are images without a label. *)
Theorem C144_semi_partial : forall lhs_first env env2 k images labels,
  let p := clus_train_semi_say lhs_first env env2 k images labels in
  let n := length images in let u := length (unlabelled labels images) in
  let first := reports (lit "training supervised") (Z.of_nat n) in let second := reports (lit "training unsupervised") (Z.of_nat u) in
  fst p = clus_train_semi lhs_first env env2 k images labels /\
  (k_verbose k = false -> snd p = []) /\
  (images <> [] -> len images <= INT_MAX -> Z.of_nat (size labels) <= len images ->
   (Z.of_nat (size labels) < len images \/ forall i l, labels !! i = Some l -> 0 <= i < len images) -> k_verbose k = true ->
   match fst (fst p) with
   | Ok _ => snd p = first n ++ line_end ++ second u ++ line_end
   | _ => (exists m, (m <= n)%nat /\ snd p = first m) \/ (exists m, (m <= u)%nat /\ snd p = first n ++ line_end ++ second m)
   end).
Proof.
  intros lhs env env2 k images labels. cbv zeta. split; [apply semi_quiet|]. split; [apply semi_off|]. intros Hne Hl Hs Hc V. destruct images as [|im0 images]; [congruence|].
  rewrite semi_quiet. exact (semi_on lhs env env2 k im0 images labels Hl Hs Hc V).
Qed.
Print Assumptions C144_semi_partial.
(** A concrete run: three images, the last of the wrong size; the reports stop at it. *)
Definition loud_w : wisard := set_reporting true false false false cfg.
Definition loud_k : cluswisard := set_clus_reporting true false false false (kfg 2).
Definition bell (s : string) : str := (fun c => if ascii_dec c "|" then to_char 13 else if ascii_dec c "/" then to_char 10 else c) <$> lit s.
Example C144_witness :
  (let '((o, _), t) := wisard_train_say false env0 loud_w [w1; w2] [hot; cold] in (o, t) = (Ok tt, bell "|training 1 of 2|training 2 of 2|/")) /\
  (let '((o, _), t) := wisard_train_say false env0 loud_w [w1; w2; vec_image [1]] [hot; cold; hot] in
   match o with Ok _ => False | _ => t = bell "|training 1 of 3|training 2 of 3|training 3 of 3" end) /\
  snd (wisard_train_say false env0 cfg [w1; w2] [hot; cold]) = [] /\
  (let '((o, _), t) := clus_train_semi_say false envs envs loud_k [x1; x2] {[0 := ka]} in
   (o, t) = (Ok tt, bell "|training supervised 1 of 2|training supervised 2 of 2|/|training unsupervised 1 of 1|/")) /\
  (let '((o, _), t) := wisard_train_ds_say false env0 loud_w (snd (ds_add_list ds_empty [1; 1; 0; 0] hot)) in (o, t) = (Ok tt, bell "|training 1 of 1")).
Proof. split; [vm_compute; reflexivity|]. split; [vm_compute; reflexivity|]. split; [vm_compute; reflexivity|]. split; [vm_compute; reflexivity|vm_compute; reflexivity]. Qed.

(** ** C145: the reporting options influence neither what is learned nor which label is answered *)
Theorem C145_wisard : forall v rc ra rd lhs_first w, let set := set_reporting v rc ra rd in
  (forall cs, wrun lhs_first (set w) cs = (fst (wrun lhs_first w cs), set (snd (wrun lhs_first w cs)))) /\
  (forall env ds, wisard_train_ds lhs_first env (set w) ds = (fst (wisard_train_ds lhs_first env w ds), set (snd (wisard_train_ds lhs_first env w ds)))) /\
  (forall images, wisard_classify (set w) images = wisard_classify w images) /\
  (forall images, classes_of (py_classify (set w) images) = classes_of (py_classify w images)) /\
  (forall iter, wisard_mental iter (set w) = wisard_mental iter w).
Proof.
  intros v rc ra rd lhs w. cbv zeta. split; [intros cs; rewrite wrun_rep; destruct (wrun lhs w cs); reflexivity|].
  split; [intros env ds; rewrite train_ds_rep; destruct (wisard_train_ds lhs env w ds); reflexivity|]. split; [reflexivity|]. split; [intros; apply py_rep|reflexivity].
Qed.
Print Assumptions C145_wisard.
Theorem C145_cluswisard : forall v rc ra rd lhs_first k, let set := set_clus_reporting v rc ra rd in
  (forall cs, krun lhs_first (set k) cs = (fst (krun lhs_first k cs), set (snd (krun lhs_first k cs)))) /\
  (forall images, clus_classify (set k) images = clus_classify k images) /\
  (forall images, clus_classifyUnsupervised (set k) images = clus_classifyUnsupervised k images) /\
  (forall images, classes_of (py_clus_classify (set k) images) = classes_of (py_clus_classify k images)) /\
  (forall iter, clus_mental iter (set k) = clus_mental iter k).
Proof.
  intros v rc ra rd lhs k. cbv zeta. split; [intros cs; rewrite krun_rep; destruct (krun lhs k cs); reflexivity|]. split; [reflexivity|]. split; [reflexivity|]. split; [intros; apply py_clus_rep|reflexivity].
Qed.
Print Assumptions C145_cluswisard.
Example C145_witness : let set := set_reporting true true true true in
  fst (wrun false (set cfg) calls) = Ok tt /\ wisard_classify (snd (wrun false (set cfg) calls)) [w1; w2; w3] = Ok [hot; cold; hot] /\
  classes_of (py_classify (snd (wrun false (set cfg) calls)) [w2]) = Ok [cold] /\ py_classify (snd (wrun false (set cfg) calls)) [w2] <> py_classify (snd (wrun false cfg calls)) [w2].
Proof. split; [vm_compute; reflexivity|]. split; [vm_compute; reflexivity|]. split; [vm_compute; reflexivity|]. vm_compute. discriminate. Qed.
