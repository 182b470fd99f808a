(** Property theorem C157: KernelCanvas in front of a Wisard. *)
From Coq Require Import SpecFloat.
From Verif Require Import Prelude Bytes Utils Float32 BinInput Bleaching Ram Disc DataSet Wisard Kernel SpecDisc SpecBleach SpecWisard SpecKernel.
From Verif Require Import TextProofs BinProofs CtorFacts WisardProofs WisardFacts WisardMore Recall PropsWisard PropsRecall KernelSort PropsKernel PropsPipeline.

Lemma trains_examples env (imgs : list image) ls x l : (l, Train x) ∈ all_examples [CTrain env imgs ls] <-> exists i : nat, imgs !! i = Some x /\ ls !! i = Some l.
Proof.
  unfold all_examples. cbn. rewrite app_nil_r. rewrite elem_of_list_lookup. split.
  - intros (i & Hi). apply lookup_zip_with_Some in Hi as (l' & t & [= <- <-] & Hl & Ht). rewrite list_lookup_fmap in Ht. destruct (imgs !! i) as [y|] eqn:E; [|discriminate]. injection Ht as ->. eauto.
  - intros (i & Hx & Hl). exists i. apply lookup_zip_with_Some. exists l, (Train x). rewrite list_lookup_fmap, Hx. auto.
Qed.

(** The images KernelCanvas makes of a data set: whatever the data, any tanh and sort; one image of
    kernels * bitsByKernel pixels, zeros and ones, per sequence. *)
Lemma canvas_images tanh srt dim n o draw c : sorts srt -> rand_values draw -> allowed dim n o -> o_direction o = false -> to_activate n o c -> n * o_bits o <= INT_MAX ->
  exists kc, kc_new_py dim n o draw = Ok kc /\ forall seq, SpecKernel.shaped dim seq -> exists out, kc_transform srt tanh kc seq = Ok out /\ len out = n * o_bits o /\ Forall (fun v => v = 0 \/ v = 1) out.
Proof.
  intros Hs Hr Ha Hd Hc Hm. destruct (C79_counts tanh srt dim n o draw c Hs Hr Ha Hd Hc Hm) as (kc & E & (out0 & E0 & L0 & F0) & Hrow). exists kc. split; [exact E|].
  intros [|row seq] Hseq.
  - exists out0. split; [exact E0|]. split; [exact L0|]. eapply Forall_impl; [exact F0|]. cbn. auto.
  - destruct (Hrow row seq Hseq) as (out & Eo & Lo & Fo & _). exists out. auto.
Qed.

(** C157: a Wisard built for images of kernels * bitsByKernel pixels can be trained on the
    transforms of any labelled sequences, and then answers the transform of any sequence with one
    of the labels given. *)
Theorem C157_canvas_wisard : forall tanh srt dim n o draw c lhs_first env w0 (seqs : list (list (list f64))) (ls : list str),
  sorts srt -> rand_values draw -> allowed dim n o -> o_direction o = false -> to_activate n o c -> n * o_bits o <= INT_MAX ->
  w_discriminators w0 = ∅ -> configured w0 (n * o_bits o) -> Forall (can_learn w0 (n * o_bits o)) ls -> (forall l, valid_draw (env l)) ->
  seqs <> [] -> len seqs = len ls -> len seqs <= INT_MAX - 2 -> Forall (SpecKernel.shaped dim) seqs ->
  exists kc imgs w, kc_new_py dim n o draw = Ok kc /\ Forall2 (fun seq im => kc_transform srt tanh kc seq = Ok im) seqs imgs /\
    wisard_train lhs_first env w0 (vec_image <$> imgs) ls = (Ok tt, w) /\
    (forall seq, SpecKernel.shaped dim seq -> exists out l, kc_transform srt tanh kc seq = Ok out /\ wisard_classify w [vec_image out] = Ok [l] /\ l ∈ ls) /\
    (w_ignoreZero w0 = false -> w_mapping w0 = ∅ -> w_bleachingActivated w0 = false ->
     forall i seq l, seqs !! i = Some seq -> ls !! i = Some l -> exists out cand k, kc_transform srt tanh kc seq = Ok out /\
       wisard_candidates w (vec_image out) = Ok cand /\ wisard_classify w [vec_image out] = Ok [k] /\
       cand !! l = Some (rams_per_label w0 (n * o_bits o)) /\ cand !! k = Some (rams_per_label w0 (n * o_bits o)) /\
       (forall l' v, cand !! l' = Some v -> v <= rams_per_label w0 (n * o_bits o))).
Proof.
  intros tanh srt dim n o draw c lhs env w0 seqs ls Hs Hr Ha Hd Hc Hm H0 Hcf Hls Henv Hne Hlen Hmax Hsh.
  destruct (canvas_images tanh srt dim n o draw c Hs Hr Ha Hd Hc Hm) as (kc & Ekc & Htr). set (N := n * o_bits o) in *. exists kc.
  assert (Himg : exists imgs, Forall2 (fun seq im => kc_transform srt tanh kc seq = Ok im /\ plain_image (w_base w0) N (vec_image im)) seqs imgs).
  { clear -Hsh Htr Hcf. induction Hsh as [|s seqs Hs _ (imgs & IH)]; [exists []; constructor|]. destruct (Htr s Hs) as (out & E & Lo & Fo). exists (out :: imgs). constructor; [|exact IH].
    split; [exact E|]. apply bits_plain; [apply Hcf|exact Lo|exact Fo]. }
  destruct Himg as (imgs & HF). set (cs := [CTrain env (vec_image <$> imgs) ls]).
  assert (Hl2 : len imgs = len seqs) by (unfold len; rewrite (Forall2_length _ _ _ HF); reflexivity).
  assert (Hplain : Forall (fun im => plain_image (w_base w0) N (vec_image im)) imgs).
  { clear -HF. induction HF as [|? ? ? ? (_ & H) _ IH]; [apply Forall_nil_2|apply Forall_cons_2; assumption]. }
  assert (Hp : Forall (proper_call w0 N) cs).
  { apply Forall_cons_2; [|apply Forall_nil_2]. split.
    - cbn [examples]. apply Forall_forall. intros [l t] Hin. apply elem_of_zip_r in Hin. apply elem_of_list_fmap in Hin as (x & -> & Hx). apply elem_of_list_fmap in Hx as (im & -> & Him).
      cbn. rewrite Forall_forall in Hplain. apply Hplain, Him.
    - split; [destruct imgs; [destruct seqs; [congruence|inversion HF]|discriminate]|]. split; [unfold len in *; rewrite fmap_length; lia|]. split; [exact Hls|exact Henv]. }
  assert (Hle : len (all_examples cs) <= INT_MAX - 2).
  { unfold cs, all_examples. cbn. rewrite app_nil_r. unfold len. rewrite zip_with_length. unfold len in *. lia. }
  destruct (wisard_law lhs w0 N cs H0 Hcf Hp Hle) as (w & d0 & E & _). exists imgs, w. split; [exact Ekc|].
  assert (Erun : wrun lhs w0 cs = ebind (wisard_train lhs env w0 (vec_image <$> imgs) ls) (fun _ w => (Ok tt, w))) by reflexivity.
  split; [clear -HF; induction HF as [|? ? ? ? (H & _) _ IH]; constructor; assumption|]. split.
  { rewrite Erun in E. destruct (wisard_train lhs env w0 (vec_image <$> imgs) ls) as [[[]| | |] w']; cbn in E; congruence. }
  split.
  - intros seq Hseq. destruct (Htr seq Hseq) as (out & Eo & Lo & Fo).
    destruct (C138_known_labels lhs w0 N cs (vec_image out) H0 Hcf Hp Hle) as (w' & l & E' & Ecl & Hk & _); [apply bits_plain; [apply Hcf|exact Lo|exact Fo]|].
    assert (w' = w) as -> by congruence. exists out, l. split; [exact Eo|]. split; [exact Ecl|].
    destruct Hk as (x & Hx).
    + destruct imgs as [|im imgs]; [destruct seqs; [congruence|inversion HF]|]. destruct ls as [|l0 ls]; [unfold len in Hlen, Hl2; cbn in *; lia|]. exists l0, (vec_image im). apply trains_examples. exists O. auto.
    + apply trains_examples in Hx as (i & _ & Hi). eapply elem_of_list_lookup_2, Hi.
  - intros Hz Hmap Hb i seq l Hi Hli. destruct (Forall2_lookup_l _ _ _ _ _ HF Hi) as (out & Hout & Eo & Hpl). exists out.
    destruct (C136_full_count_partial lhs w0 N cs l (vec_image out) H0 Hcf Hp Hle ltac:(repeat constructor) Hz Hmap Hb) as (w' & cand & k & E' & Hrest).
    { apply trains_examples. exists i. rewrite list_lookup_fmap, Hout. auto. }
    assert (w' = w) as -> by congruence. exists cand, k. split; [exact Eo|]. exact Hrest.
Qed.
Print Assumptions C157_canvas_wisard.
Definition wcanvas : wisard := Wisard 2 false false ∅ [] false true 2 false false false false 1 ∅.
Definition s1 : list (list f64) := [[fz 5]; [fz 6]; [fz 12]]. Definition s2 : list (list f64) := [[fz 5]].
Example C157_witness : sorts isort /\ allowed 1 4 o2 /\ o_direction o2 = false /\ to_activate 4 o2 2 /\ 4 * o_bits o2 = 8 /\
  configured wcanvas 8 /\ Forall (can_learn wcanvas 8) [hot; cold] /\ Forall (SpecKernel.shaped 1) [s1; s2] /\
  (let* i1 := trans 1 4 o2 s1 in let* i2 := trans 1 4 o2 s2 in
   wisard_classify (snd (wisard_train true env0 wcanvas [vec_image i1; vec_image i2] [hot; cold])) [vec_image i1; vec_image i2]) = Ok [hot; cold].
Proof.
  split; [exact isort_sorts|]. split; [split; [lia|split; [lia|split; [cbn; lia|exact o2_degree]]]|]. split; [reflexivity|]. split; [reflexivity|]. split; [reflexivity|].
  split; [split; [unfold INT_MAX; lia|split; [cbn; lia|split; [cbn; lia|vm_compute; congruence]]]|].
  split.
  { assert (H : forall l, can_learn wcanvas 8 l).
    { intros l. unfold can_learn. cbn. rewrite lookup_empty. unfold INT_MAX. split; [lia|]. split; [lia|]. split; [split; [intros _; lia|congruence]|left; reflexivity]. }
    repeat apply Forall_cons_2; auto using Forall_nil_2. }
  split; [repeat constructor|]. vm_compute. reflexivity.
Qed.
