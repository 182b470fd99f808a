(** Property theorem C156: training in portions is training at once. *)
From Verif Require Import Prelude Bytes Float32 Utils BinInput Bleaching Ram Json Disc DataSet Wisard Cluster ClusWisard SpecDisc SpecWisard SpecClus.
From Verif Require Import TextProofs CtorFacts PropsDisc PropsWisard PropsCluster PropsClus.

Lemma ebind_assoc {S A B C} (m : eff S A) (f : A -> S -> eff S B) (g : B -> S -> eff S C) : ebind (ebind m f) g = ebind m (fun a s => ebind (f a s) g).
Proof. destruct m as [[a|e|u|] s]; reflexivity. Qed.
Lemma ebind_ext {S A B} (P : S -> Prop) (m : eff S A) (f g : A -> S -> eff S B) : P (snd m) -> (forall a s, P s -> f a s = g a s) -> ebind m f = ebind m g.
Proof. destruct m as [[a|e|u|] s]; cbn; auto. Qed.

(** The options checks read are never changed by training. *)
Definition same_opts (w w' : wisard) : Prop := w_addressSize w' = w_addressSize w /\ w_completeAddressing w' = w_completeAddressing w /\ w_confidence w' = w_confidence w.
Lemma opts_trans w1 w2 w3 : same_opts w1 w2 -> same_opts w2 w3 -> same_opts w1 w3.
Proof. unfold same_opts. intuition congruence. Qed.
Lemma at_label_opts f w l : same_opts w (snd (at_label f w l)).
Proof. unfold at_label. destruct (w_discriminators w !! l); [|easy]. destruct (f d). easy. Qed.
Lemma train1_opts lhs env w im l : same_opts w (snd (wisard_train1 lhs env w im l)).
Proof.
  unfold wisard_train1. destruct (w_discriminators w !! l); [apply at_label_opts|]. unfold makeDiscriminator. destruct (construct_discriminator _ _ _ _) as [d|e|u|]; cbn [ebind snd]; [|destruct lhs; easy|easy|easy].
  eapply opts_trans; [|apply at_label_opts]. easy.
Qed.
Lemma loop_opts lhs env : forall xs ls w, same_opts w (snd (wisard_train_loop lhs env w xs ls)).
Proof.
  induction xs as [|x xs IH]; intros ls w; [easy|]. destruct ls as [|l ls]; [easy|]. cbn [wisard_train_loop]. pose proof (train1_opts lhs env w x l) as H.
  destruct (wisard_train1 lhs env w x l) as [[u|e|u|] w1]; cbn [ebind snd] in *; try exact H. eapply opts_trans; [exact H|apply IH].
Qed.
Lemma loop_app lhs env : forall xs ls ys ms w, length xs = length ls ->
  wisard_train_loop lhs env w (xs ++ ys) (ls ++ ms) = ebind (wisard_train_loop lhs env w xs ls) (fun _ w => wisard_train_loop lhs env w ys ms).
Proof.
  induction xs as [|x xs IH]; intros ls ys ms w H; destruct ls as [|l ls]; try discriminate; [reflexivity|]. cbn [app wisard_train_loop]. rewrite ebind_assoc.
  apply (ebind_ext (fun _ => True)); [exact I|]. intros _ s _. apply IH. injection H as H. exact H.
Qed.
Lemma sizes_ok a b : a = b -> checkInputSizes a b = Ok tt.
Proof. intros ->. unfold checkInputSizes. rewrite Z.eqb_refl. reflexivity. Qed.

(** C156 for Wisard: one call with xs ++ ys, or a call with xs and then one with ys: the same
    outcome (success, or the same exception) and the same state, for any images of one size, any
    labels, options and states. *)
Theorem C156_wisard : forall lhs_first env w (xs ys : list image) (ls ms : list str) n,
  xs <> [] -> ys <> [] -> length xs = length ls -> length ys = length ms -> Forall (fun x => im_size x = n) (xs ++ ys) ->
  wisard_train lhs_first env w (xs ++ ys) (ls ++ ms) =
  ebind (wisard_train lhs_first env w xs ls) (fun _ w => wisard_train lhs_first env w ys ms).
Proof.
  intros lhs env w xs ys ls ms n Hx Hy Hl Hm Hn. destruct xs as [|x xs]; [congruence|]. destruct ys as [|y ys]; [congruence|].
  apply Forall_app in Hn as (Hn1 & Hn2). apply Forall_cons in Hn1 as (Hn1 & _). apply Forall_cons in Hn2 as (Hn2 & _). cbn [app] in *.
  unfold wisard_train at 1 2. rewrite Hn1. destruct (calculateNumberOfRams (s32 n) (w_addressSize w) (w_completeAddressing w)) as [r| | |] eqn:Er; [|reflexivity..].
  destruct (checkConfidence (w_confidence w) r) eqn:Ec; [|reflexivity..].
  rewrite !sizes_ok; [|unfold len; cbn [length] in *; rewrite ?app_length in *; cbn [length] in *; lia..].
  change (x :: xs ++ y :: ys) with ((x :: xs) ++ (y :: ys)). rewrite loop_app by exact Hl.
  apply (ebind_ext (same_opts w)); [apply loop_opts|]. intros _ s (H1 & H2 & H3). unfold wisard_train. rewrite Hn2, H1, H2, H3, Er, Ec, sizes_ok by (unfold len; lia). reflexivity.
Qed.
Print Assumptions C156_wisard.
(** Nor does it matter to leaveMoreOut (images of any sizes). *)
Theorem C156_leave : forall w (xs ys : list image) (ls ms : list str), length xs = length ls -> length ys = length ms ->
  leaveMoreOut w (xs ++ ys) (ls ++ ms) = ebind (leaveMoreOut w xs ls) (fun _ w => leaveMoreOut w ys ms).
Proof.
  intros w xs ys ls ms Hl Hm. unfold leaveMoreOut at 1 2. rewrite !sizes_ok; [|unfold len; rewrite ?app_length; lia..].
  assert (G : forall xs ls w, length xs = length ls -> leaveMoreOut_loop w (xs ++ ys) (ls ++ ms) = ebind (leaveMoreOut_loop w xs ls) (fun _ w => leaveMoreOut_loop w ys ms)).
  { clear. induction xs as [|x xs IH]; intros ls w H; destruct ls as [|l ls]; try discriminate; [reflexivity|]. cbn [app leaveMoreOut_loop]. rewrite ebind_assoc.
    apply (ebind_ext (fun _ => True)); [exact I|]. intros _ s _. apply IH. injection H as H. exact H. }
  rewrite G by exact Hl. apply (ebind_ext (fun _ => True)); [exact I|]. intros _ s _. unfold leaveMoreOut. rewrite sizes_ok by (unfold len; lia). reflexivity.
Qed.
Print Assumptions C156_leave.

(** ClusWisard. *)
Definition same_kopts (k k' : cluswisard) : Prop := k_addressSize k' = k_addressSize k /\ k_completeAddressing k' = k_completeAddressing k /\ k_confidence k' = k_confidence k.
Lemma ctrain1_opts lhs dr k im l : same_kopts k (snd (clus_train1 lhs dr k im l)).
Proof. unfold clus_train1, at_cluster. destruct (k_clusters k !! l); destruct (cluster_train _ _ _ _); easy. Qed.
Lemma cloop_opts lhs env : forall xs ls i k, same_kopts k (snd (clus_train_loop lhs env i k xs ls)).
Proof.
  induction xs as [|x xs IH]; intros ls i k; [easy|]. destruct ls as [|l ls]; [easy|]. cbn [clus_train_loop]. pose proof (ctrain1_opts lhs (env i) k x l) as H.
  destruct (clus_train1 lhs (env i) k x l) as [[u|e|u|] k1]; cbn [ebind snd] in *; try exact H. specialize (IH ls (S i) k1). unfold same_kopts in *. intuition congruence.
Qed.
Lemma cloop_app lhs env : forall xs ls ys ms i k, length xs = length ls ->
  clus_train_loop lhs env i k (xs ++ ys) (ls ++ ms) = ebind (clus_train_loop lhs env i k xs ls) (fun _ k => clus_train_loop lhs env (i + length xs) k ys ms).
Proof.
  induction xs as [|x xs IH]; intros ls ys ms i k H; destruct ls as [|l ls]; try discriminate; [cbn; rewrite Nat.add_0_r; reflexivity|]. cbn [app clus_train_loop length]. rewrite ebind_assoc.
  apply (ebind_ext (fun _ => True)); [exact I|]. intros _ s _. rewrite IH by (injection H as H; exact H). rewrite Nat.add_succ_r. reflexivity.
Qed.
Lemma cloop_shift lhs env m : forall xs ls i k, clus_train_loop lhs env (m + i) k xs ls = clus_train_loop lhs (fun j => env (m + j)%nat) i k xs ls.
Proof.
  induction xs as [|x xs IH]; intros ls i k; [reflexivity|]. destruct ls as [|l ls]; [reflexivity|]. cbn [clus_train_loop]. apply (ebind_ext (fun _ => True)); [exact I|].
  intros _ s _. rewrite <- IH. f_equal. lia.
Qed.
(** The random choices of the second call are those the one call makes for its images. *)
Theorem C156_cluswisard : forall lhs_first env k (xs ys : list image) (ls ms : list str) n,
  xs <> [] -> ys <> [] -> length xs = length ls -> length ys = length ms -> Forall (fun x => im_size x = n) (xs ++ ys) ->
  clus_train lhs_first env k (xs ++ ys) (ls ++ ms) =
  ebind (clus_train lhs_first env k xs ls) (fun _ k => clus_train lhs_first (fun i => env (length xs + i)%nat) k ys ms).
Proof.
  intros lhs env k xs ys ls ms n Hx Hy Hl Hm Hn. destruct xs as [|x xs]; [congruence|]. destruct ys as [|y ys]; [congruence|].
  apply Forall_app in Hn as (Hn1 & Hn2). apply Forall_cons in Hn1 as (Hn1 & _). apply Forall_cons in Hn2 as (Hn2 & _). cbn [app] in *.
  unfold clus_train at 1 2. unfold clus_first_checks. rewrite Hn1. destruct (calculateNumberOfRams (s32 n) (k_addressSize k) (k_completeAddressing k)) as [r| | |] eqn:Er; cbn [rbind elift]; [|reflexivity..].
  destruct (checkConfidence (k_confidence k) r) eqn:Ec; cbn [rbind]; [|reflexivity..].
  rewrite !sizes_ok; [|unfold len; cbn [length] in *; rewrite ?app_length in *; cbn [length] in *; lia..]. unfold elift. cbn [ebind].
  change (x :: xs ++ y :: ys) with ((x :: xs) ++ (y :: ys)). rewrite cloop_app by exact Hl.
  apply (ebind_ext (same_kopts k)); [apply cloop_opts|]. intros _ s (H1 & H2 & H3). unfold clus_train, clus_first_checks. rewrite Hn2, H1, H2, H3, Er. cbn [rbind]. rewrite Ec. cbn [rbind].
  rewrite sizes_ok by (unfold len; lia). unfold elift. cbn [ebind]. rewrite <- cloop_shift. f_equal. lia.
Qed.
Print Assumptions C156_cluswisard.

Example C156_witness : fst (wisard_train true env0 cfg ([w1; w2] ++ [w3]) ([hot; cold] ++ [hot])) = Ok tt /\
  fst (clus_train false envs (kfg 2) ([x1; x2] ++ [x4]) ([ka; kb] ++ [kb])) = Ok tt /\
  kcounters (snd (clus_train false envs (kfg 2) ([x1; x2] ++ [x4]) ([ka; kb] ++ [kb]))) = [(ka, [1]); (kb, [1; 1])].
Proof. split; [|split]; vm_compute; reflexivity. Qed.
(** One size matters: only the first image of a call is compared with the confidence. *)
Example C156_one_size : let w := Wisard 2 true false ∅ [] false true 2 false false false false 2 ∅ in let small := vec_image [1; 0] in
  fst (wisard_train true env0 w [w1; small] [hot; cold]) = Ok tt /\
  fst (ebind (wisard_train true env0 w [w1] [hot]) (fun _ w => wisard_train true env0 w [small] [cold])) = Throw confidence_exn.
Proof. split; vm_compute; reflexivity. Qed.
