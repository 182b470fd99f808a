(** Property theorems C151 (continued: failing calls too) and C152: pixel values are only names.
    Vocabulary in SpecValues.v. *)
From Verif Require Import Prelude Bytes Utils BinInput Float32 Bleaching Ram Disc DataSet Wisard Cluster ClusWisard SpecBin SpecDisc SpecWisard SpecClus SpecValues.
From Verif Require Import BytesProofs CtorFacts ValueSim ClusRename WisRename PropsWisard PropsClus.

(** C151 (continued): within one base, whatever the options and the calls and whether these succeed:
    every call has the same outcome, and so has every classification after them. *)
Theorem C151_renamed_outcomes : forall lhs f w0 cs cs',
  renaming f (w_base w0) (w_ignoreZero w0) -> int_options w0 -> w_discriminators w0 = ∅ -> Forall2 (renamed_wcall f (w_base w0)) cs cs' ->
  let after := outcomes (wcall_run lhs) w0 cs in let after' := outcomes (wcall_run lhs) w0 cs' in
  fst after' = fst after /\
  (forall x x', renamed_image f (w_base w0) x x' -> wisard_candidates (snd after') x' = wisard_candidates (snd after) x) /\
  (forall xs xs', Forall2 (renamed_image f (w_base w0)) xs xs' -> wisard_classify (snd after') xs' = wisard_classify (snd after) xs).
Proof.
  intros lhs f w0 cs cs' Hf Hi H0 HC. cbv zeta. destruct (wrun_wrel f w0 Hf Hi lhs cs cs' HC w0 w0 (start_wrel f w0 H0)) as [E H]. split; [exact E|].
  split; [intros x x' Hx; eapply candidates_wrel; eassumption|intros xs xs' Hx; eapply classify_wrel; eassumption].
Qed.
Print Assumptions C151_renamed_outcomes.

(** C152: the same for ClusWisard, whose training asks the discriminators it has for their votes:
    every call has the same outcome, and every image then gets the same votes, the same label and
    the same unsupervised cluster. *)
Theorem C152_renamed_values : forall lhs f k0 cs cs',
  renaming f (k_base k0) (k_ignoreZero k0) -> is_int (k_base k0) -> k_clusters k0 = ∅ -> k_unsupervised k0 = cluster_default -> Forall2 (renamed_kcall f (k_base k0)) cs cs' ->
  let after := outcomes (kcall_run lhs) k0 cs in let after' := outcomes (kcall_run lhs) k0 cs' in
  fst after' = fst after /\
  (forall x x', renamed_image f (k_base k0) x x' -> clus_votes (k_clusters (snd after')) x' = clus_votes (k_clusters (snd after)) x) /\
  (forall xs xs', Forall2 (renamed_image f (k_base k0)) xs xs' -> clus_classify (snd after') xs' = clus_classify (snd after) xs /\ clus_classifyUnsupervised (snd after') xs' = clus_classifyUnsupervised (snd after) xs).
Proof.
  intros lhs f k0 cs cs' Hf Hb H0 HU HC. cbv zeta. destruct (krun_rel f (k_base k0) (k_ignoreZero k0) Hf Hb lhs cs cs' HC k0 k0 (start_rel f (k_base k0) (k_ignoreZero k0) k0 eq_refl eq_refl H0 HU)) as [E H]. split; [exact E|].
  split; [intros x x' Hx; eapply votes_krel; eassumption|]. intros xs xs' Hx. split; [eapply classify_krel|eapply classify_unsup_krel]; eassumption.
Qed.
Print Assumptions C152_renamed_values.

(** Not vacuous: invert the even pixels of black and white images; the first call fails (two labels
    for one image), the next ones train. *)
Definition flip (p v : Z) : Z := if Z.even p then 1 - v else v.
Lemma flip_renames : renaming flip 2 false.
Proof. intros p. unfold flip. split; [intros v Hv; destruct (Z.even p); lia|]. split; [intros u v Hu Hv; destruct (Z.even p); lia|discriminate]. Qed.
Definition flipped (l : list Z) : image := vec_image (imap (fun i v => flip (Z.of_nat i) v) l).
Lemma flip_image l : Forall (fun v => 0 <= v < 2) l -> renamed_image flip 2 (vec_image l) (flipped l).
Proof.
  intros H. unfold flipped, renamed_image, vec_image. cbn [im_size im_get]. split; [unfold len; rewrite imap_length; reflexivity|]. intros p. unfold vget. destruct (Z.leb_spec 0 p) as [Hp|Hp]; [|reflexivity].
  rewrite list_lookup_imap. destruct (l !! Z.to_nat p) as [v|] eqn:E; cbn [fmap option_fmap option_map]; [|reflexivity]. split; [exact (proj1 (Forall_lookup _ _) H _ _ E)|]. rewrite Z2Nat.id by lia. reflexivity.
Qed.
Definition plain_calls : list kcall := [KTrain envs [vec_image [1; 1; 0; 0]] [ka; kb]; KTrain envs [vec_image [1; 1; 0; 0]; vec_image [0; 0; 1; 1]; vec_image [0; 1; 1; 0]] [ka; kb; ka]; KUnsupervised envs [vec_image [1; 1; 0; 0]]].
Definition flip_calls : list kcall := [KTrain envs [flipped [1; 1; 0; 0]] [ka; kb]; KTrain envs [flipped [1; 1; 0; 0]; flipped [0; 0; 1; 1]; flipped [0; 1; 1; 0]] [ka; kb; ka]; KUnsupervised envs [flipped [1; 1; 0; 0]]].
Lemma flip_bits a b c d : 0 <= a < 2 -> 0 <= b < 2 -> 0 <= c < 2 -> 0 <= d < 2 -> renamed_image flip 2 (vec_image [a; b; c; d]) (flipped [a; b; c; d]).
Proof. intros. apply flip_image. repeat (apply Forall_cons_2; [assumption|]). constructor. Qed.
Example C152_witness : k_base (kfg 2) = 2 /\ k_ignoreZero (kfg 2) = false /\ k_clusters (kfg 2) = ∅ /\ k_unsupervised (kfg 2) = cluster_default /\
  Forall2 (renamed_kcall flip 2) plain_calls flip_calls /\
  fst (outcomes (kcall_run false) (kfg 2) plain_calls) = [Throw sizes_exn; Ok tt; UB UBUninit].
Proof.
  split; [reflexivity|]. split; [reflexivity|]. split; [reflexivity|]. split; [reflexivity|]. split; [|vm_compute; reflexivity]. unfold plain_calls, flip_calls.
  repeat (apply Forall2_cons_2); try apply Forall2_nil_2; constructor; try reflexivity; try (intros; apply some_draw_valid); repeat (apply Forall2_cons_2); try apply Forall2_nil_2; apply flip_bits; lia.
Qed.
Example C152_answers : let after := snd (outcomes (kcall_run false) (kfg 2) (take 2 plain_calls)) in let after' := snd (outcomes (kcall_run false) (kfg 2) (take 2 flip_calls)) in
  clus_classify after [vec_image [1; 1; 0; 0]; vec_image [0; 0; 1; 1]] = Ok [ka; kb] /\ clus_classify after' [flipped [1; 1; 0; 0]; flipped [0; 0; 1; 1]] = Ok [ka; kb].
Proof. cbv zeta. split; vm_compute; reflexivity. Qed.
(** And for C151: a call that fails and one that does not. *)
Example C151_outcomes_witness : int_options cfg /\ w_discriminators cfg = ∅ /\ renaming flip (w_base cfg) (w_ignoreZero cfg) /\
  Forall2 (renamed_wcall flip 2) [CTrain env0 [vec_image [1; 1; 0; 0]] []; CTrain env0 [vec_image [1; 1; 0; 0]; vec_image [0; 0; 1; 1]] [hot; cold]] [CTrain env0 [flipped [1; 1; 0; 0]] []; CTrain env0 [flipped [1; 1; 0; 0]; flipped [0; 0; 1; 1]] [hot; cold]] /\
  fst (outcomes (wcall_run true) cfg [CTrain env0 [vec_image [1; 1; 0; 0]] []; CTrain env0 [vec_image [1; 1; 0; 0]; vec_image [0; 0; 1; 1]] [hot; cold]]) = [Throw sizes_exn; Ok tt].
Proof.
  split. { unfold int_options. split; [vm_compute; split; discriminate|]. split; [vm_compute; split; discriminate|]. split; [vm_compute; discriminate|]. intros l m H. discriminate. }
  split; [reflexivity|]. split; [apply flip_renames|]. split; [|vm_compute; reflexivity].
  repeat (apply Forall2_cons_2); try apply Forall2_nil_2; constructor; try (intros; apply some_draw_valid); repeat (apply Forall2_cons_2); try apply Forall2_nil_2; apply flip_bits; lia.
Qed.
