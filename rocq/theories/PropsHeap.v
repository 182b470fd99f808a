(** Property theorems C119-C122: clusters as objects that point to discriminators made with new
    (Heap.v). A program is any list of uses of clusters held in variables: constructors, loading,
    train, classify, mental images, size, assignment from a temporary, copy, destruction. *)
From Coq Require Import SpecFloat.
From Verif Require Import Prelude Bytes Float32 BinInput Ram Json Fs Disc Cluster Heap.
From Verif Require Import CtorFacts HeapProofs HeapSafe PropsCluster.

Definition no_copy (l : list cop) : Prop := Forall (fun o => forall x y, o <> PCopy x y) l.
Definition begin : pstate := (Heap ∅ 0, ∅).

(** C119: as long as no cluster is copied, a program cannot tell the pointers from discriminators held
    by value: all calls have the same outcomes. *)
Theorem C119_as_values : forall l, no_copy l -> fst (trace pstep l begin) = fst (trace vstep l ∅).
Proof. intros l Hl. exact (trace_rel l begin ∅ Hl srel_start). Qed.
Print Assumptions C119_as_values.
(** In particular, training one cluster changes nothing that another one answers. *)
Theorem C119_no_interference : forall l x y lhs_first dr im, no_copy l -> x <> y ->
  Forall (fun r => match r with UB _ | Hang => False | _ => True end) (fst (trace pstep l begin)) ->
  let s := snd (trace pstep l begin) in
  let '(r, s') := pstep (PTrain x lhs_first dr im) s in
  (match r with UB _ | Hang => False | _ => True end) ->
  (forall im', fst (pstep (PClassify y im') s') = fst (pstep (PClassify y im') s)) /\
  (forall iter, fst (pstep (PMental y iter) s') = fst (pstep (PMental y iter) s)) /\
  fst (pstep (PSize y) s') = fst (pstep (PSize y) s).
Proof.
  intros l x y lhs dr im Hl Hxy Hret.
  assert (R : exists vm, srel (snd (trace pstep l begin)) vm).
  { clear -Hl Hret. unfold begin in *. generalize srel_start as R. generalize (∅ : gmap nat cluster) as vm. revert Hret. generalize ((Heap ∅ 0, ∅) : pstate) as s.
    induction Hl as [|o l Ho _ IH]; intros s Hret vm R; [exists vm; exact R|]. cbn [trace] in *.
    pose proof (step_rel o s vm Ho R) as S. destruct (pstep o s) as [r s']. destruct (vstep o vm) as [r' vm']. destruct S as [_ S].
    specialize (IH s'). destruct r; cbn [fst] in Hret.
    - destruct (trace pstep l s') as [rs s'']. cbn [fst snd] in *. apply Forall_cons in Hret as [_ Hret]. exact (IH Hret vm' (S I)).
    - destruct (trace pstep l s') as [rs s'']. cbn [fst snd] in *. apply Forall_cons in Hret as [_ Hret]. exact (IH Hret vm' (S I)).
    - apply Forall_cons in Hret as [[] _].
    - apply Forall_cons in Hret as [[] _]. }
  destruct R as [vm R]. cbv zeta. set (s := snd (trace pstep l begin)) in *. clearbody s.
  pose proof (step_rel (PTrain x lhs dr im) s vm ltac:(discriminate) R) as S. destruct (pstep (PTrain x lhs dr im) s) as [r s'].
  destruct (vstep (PTrain x lhs dr im) vm) as [r' vm'] eqn:Ev. destruct S as [_ S]. intros Hr.
  assert (R' : srel s' vm') by (apply S; destruct r; auto).
  assert (Evm : vm' !! y = vm !! y).
  { cbn [vstep] in Ev. unfold v_at in Ev. destruct (vm !! x) as [c|]; [|congruence]. destruct (cluster_train lhs dr c im) as [o c']. injection Ev as _ <-.
    apply lookup_insert_ne. exact Hxy. }
  assert (Q : forall o, (forall a b, o <> PCopy a b) -> fst (vstep o vm') = fst (vstep o vm) -> fst (pstep o s') = fst (pstep o s)).
  { intros o Ho E. pose proof (step_rel o s vm Ho R) as S1. pose proof (step_rel o s' vm' Ho R') as S2.
    destruct (pstep o s) as [a sa], (pstep o s') as [b sb], (vstep o vm) as [c vc], (vstep o vm') as [d vd]. cbn [fst] in *. destruct S1 as [-> _], S2 as [-> _]. exact E. }
  split; [|split].
  - intros im'. apply Q; [discriminate|]. cbn [vstep]. unfold v_at. rewrite Evm. destruct (vm !! y); reflexivity.
  - intros iter. apply Q; [discriminate|]. cbn [vstep]. unfold v_at. rewrite Evm. destruct (vm !! y); reflexivity.
  - apply Q; [discriminate|]. cbn [vstep]. unfold v_at. rewrite Evm. destruct (vm !! y); reflexivity.
Qed.
Print Assumptions C119_no_interference.
Definition new0 (x : nat) : cop := PNew x 4 2 half 4 2 true false 2.
Definition learn (x : nat) (im : image) : cop := PTrain x false some_draw im.
Example C119_witness : let l := [new0 0; learn 0 x1; new0 1; learn 1 x2; learn 0 x2; PAssign 1 2; learn 2 x5; PSize 0; PClassify 2 x2] in
  no_copy l /\ fst (trace pstep l begin) =
    [Ok ONone; Ok ONone; Ok ONone; Ok ONone; Ok ONone; Ok ONone; Throw entry_exn; Ok (OSize 2); Ok (OLists [[1; 1]])].
Proof. cbv zeta. split; [repeat constructor; discriminate|vm_compute; reflexivity]. Qed.

(** C120 is false: a copy of a cluster changes when the original is trained... *)
Theorem C120_copy_refuted :
  let l := [new0 0; learn 0 x1; PCopy 0 1; PClassify 1 x1; learn 0 x1; PClassify 1 x1] in
  fst (trace pstep l begin) = [Ok ONone; Ok ONone; Ok ONone; Ok (OLists [[1; 1]]); Ok ONone; Ok (OLists [[2; 2]])] /\
  fst (trace vstep l ∅) = [Ok ONone; Ok ONone; Ok ONone; Ok (OLists [[1; 1]]); Ok ONone; Ok (OLists [[1; 1]])].
Proof. cbv zeta. split; vm_compute; reflexivity. Qed.
Print Assumptions C120_copy_refuted.
(** ... exactly: whatever the original is trained with after the copy, the copy answers as the
    discriminators the original had when it was copied answer now; those created later belong to the
    original alone. Missing: independence, which is false. *)
Theorem C120_copy_shares_partial : forall x y l s c im votes, x <> y -> s.2 !! x = Some c ->
  Forall (fun o => exists lhs_first dr im, o = PTrain x lhs_first dr im) l ->
  let s' := snd (trace pstep (PCopy x y :: l) s) in
  fst (pstep (PClassify x im) s') = Ok (OLists votes) ->
  fst (pstep (PClassify y im) s') = Ok (OLists (take (length (pc_ptrs c)) votes)).
Proof. intros x y l s c im votes Hxy Hx Hl. exact (copy_shares x y l s c im votes Hxy Hx Hl). Qed.
Print Assumptions C120_copy_shares_partial.
Example C120_witness : let s := snd (trace pstep [new0 0; learn 0 x1] begin) in
  fst (trace pstep [PCopy 0 1; learn 0 x2; learn 0 x1; PClassify 0 x1; PClassify 1 x1] s) =
    [Ok ONone; Ok ONone; Ok ONone; Ok (OLists [[2; 2]; [0; 0]]); Ok (OLists [[2; 2]])].
Proof. vm_compute. reflexivity. Qed.

(** C121: whatever a program creates, copies, assigns and destroys, every pointer of every cluster is
    null or points to a live discriminator. *)
Theorem C121_no_dangling : forall l x c a, let s := snd (trace pstep l begin) in
  s.2 !! x = Some c -> Some a ∈ pc_ptrs c -> is_Some (hp_cells s.1 !! a).
Proof. intros l. exact (proj1 (trace_safe l begin valid_start)). Qed.
Print Assumptions C121_no_dangling.
Example C121_witness : let s := snd (trace pstep [new0 0; learn 0 x1; PCopy 0 1; PDrop 0; learn 1 x2] begin) in
  exists c, s.2 !! 1%nat = Some c /\ pc_ptrs c = [Some 0%nat; Some 1%nat] /\ s.2 !! 0%nat = None.
Proof. eexists. split; [vm_compute; reflexivity|]. split; vm_compute; reflexivity. Qed.

(** C122 is false: once every cluster has been destroyed the discriminators are still there; nothing
    that a program does releases one. *)
Theorem C122_leak_refuted :
  (forall l l' a, is_Some (hp_cells (snd (trace pstep l begin)).1 !! a) ->
     is_Some (hp_cells (snd (trace pstep l' (snd (trace pstep l begin)))).1 !! a)) /\
  (let s := snd (trace pstep [new0 0; learn 0 x1; learn 0 x2; PDrop 0] begin) in size s.2 = 0%nat /\ size (hp_cells s.1) = 2%nat).
Proof.
  split; [|split; vm_compute; reflexivity]. intros l l' a Ha.
  apply (proj1 (proj1 (proj2 (trace_safe l' _ (proj1 (trace_safe l begin valid_start)))))). exact Ha.
Qed.
Print Assumptions C122_leak_refuted.
(** What holds: without loading, a program makes at most one discriminator for each call to train, so
    at most as many stay behind. *)
Theorem C122_leak_bound_partial : forall l, Forall (fun o => forall x f j, o <> PLoad x f j) l ->
  (size (hp_cells (snd (trace pstep l begin)).1) <= length (filter is_train l))%nat.
Proof. intros l. exact (leak_bound l). Qed.
Print Assumptions C122_leak_bound_partial.
Example C122_witness : let l := [new0 0; learn 0 x1; learn 0 x1; learn 0 x2; PDrop 0; new0 0; learn 0 x2; PDrop 0] in
  Forall (fun o => forall x f j, o <> PLoad x f j) l /\ size (hp_cells (snd (trace pstep l begin)).1) = 3%nat /\ length (filter is_train l) = 4%nat.
Proof. cbv zeta. split; [repeat constructor; discriminate|split; vm_compute; reflexivity]. Qed.
