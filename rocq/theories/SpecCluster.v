(** What a cluster of discriminators should do. *)
From Verif Require Import Prelude Bytes Float32 BinInput Ram Disc Cluster.

(** A call the program can go on after (it returned or threw). *)
Definition returns {A} (o : res A) : Prop := match o with Ok _ | Throw _ => True | _ => False end.

(** The clusters a program can reach from c by train calls, catching exceptions. *)
Inductive reaches (lhs_first : bool) (c : cluster) : cluster -> Prop :=
| reach_here : reaches lhs_first c c
| reach_train c1 dr im o c2 :
    reaches lhs_first c c1 -> cluster_train lhs_first dr c1 im = (o, c2) -> returns o -> reaches lhs_first c c2.

(** d' is d with possibly more knowledge: same wiring, counter not smaller. *)
Definition descends (d d' : disc) : Prop :=
  d_entrySize d' = d_entrySize d /\ disc_mapping d' = disc_mapping d /\ d_count d <= d_count d'.
Definition slot_kept (o o' : option disc) : Prop :=
  match o, o' with Some d, Some d' => descends d d' | None, None => True | _, _ => False end.

(** The training counter at index i (0 if there is no discriminator there). *)
Definition counter_at (c : cluster) (i : nat) : Z :=
  match c_discs c !! i with Some (Some d) => d_count d | _ => 0 end.

(** min(1, minScore + count/threshold) in single precision. *)
Definition bar (p : cparams) (count : Z) : f32 :=
  let b := f32_add (p_minScore p) (f32_div (f32_of_Z count) (f32_of_Z (p_threshold p))) in
  if f32_ltb f32_one b then f32_one else b.

(** The scores of the discriminators for an image. *)
Definition scores (c : cluster) (im : image) (ss : list f32) : Prop :=
  exists votes, cluster_classify c im = Ok votes /\ ss = getScore <$> votes.
(** Index i has the best score, and no later index has as good a one. *)
Definition last_best (ss : list f32) (i : nat) : Prop :=
  exists s, ss !! i = Some s /\ (forall j t, ss !! j = Some t -> f32_leb t s = true) /\
    forall j t, (i < j)%nat -> ss !! j = Some t -> f32_ltb t s = true.

(** Discriminators whose contents are counts (what training produces). *)
Definition counting (d : disc) : Prop :=
  len (d_rams d) <= INT_MAX /\
  Forall (fun r => forall a v, r_positions r !! a = Some v -> 0 <= v <= INT_MAX) (d_rams d).
Definition all_counting (c : cluster) : Prop :=
  Forall (fun o => match o with Some d => counting d | None => True end) (c_discs c).
