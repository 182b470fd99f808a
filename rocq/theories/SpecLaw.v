(** What a cluster (and a ClusWisard) learns, in terms of images only. *)
From Verif Require Import Prelude Bytes Float32 BinInput Ram Disc Cluster ClusWisard.
From Verif Require Import SpecDisc SpecBleach SpecWisard SpecCluster SpecClus CtorFacts.

(** A discriminator of a cluster: how it was wired, and the images it has learned. *)
Record slot := Slot { s_first : disc; s_seen : list image }.
(** The votes it owes to image x, and their score. *)
Definition slot_votes (s : slot) (x : image) : list Z :=
  (fun r => vote_due r (Train <$> s_seen s) x) <$> d_rams (s_first s).
Definition slot_score (x : image) (s : slot) : f32 := getScore (slot_votes s x).
(** Whether it takes image x by itself. *)
Definition takes (p : cparams) (x : image) (s : slot) : bool :=
  f32_leb (bar p (len (s_seen s))) (slot_score x s).
Definition feed (x : image) (s : slot) : slot := Slot (s_first s) (s_seen s ++ [x]).
(** d is a new discriminator with the parameters of the cluster, for some random choices. *)
Definition wired_by (p : cparams) (d : disc) : Prop :=
  exists dr, valid_draw dr /\
    disc_new dr (p_addressSize p) (p_entrySize p) (p_ignoreZero p) (p_complete p) [] [] (p_base p) = Ok d.

(** How a cluster learns image x: the discriminators that take it learn it; if none does, a new
    one is added below the limit, and the last best-scoring one learns it at the limit. *)
Inductive learn (p : cparams) (x : image) (ss : list slot) : list slot -> Prop :=
| learn_taken :
    Exists (fun s => takes p x s = true) ss ->
    learn p x ss ((fun s => if takes p x s then feed x s else s) <$> ss)
| learn_new d :
    Forall (fun s => takes p x s = false) ss -> ss = [] \/ len ss < p_limit p -> wired_by p d ->
    learn p x ss (ss ++ [Slot d [x]])
| learn_best i s :
    Forall (fun s => takes p x s = false) ss -> p_limit p <= len ss ->
    last_best (slot_score x <$> ss) i -> ss !! i = Some s ->
    learn p x ss (<[i := feed x s]> ss).
(** The discriminators a cluster may hold after learning a sequence of images. *)
Inductive cluster_law (p : cparams) : list image -> list slot -> Prop :=
| law_start : cluster_law p [] []
| law_learn xs x ss ss' : cluster_law p xs ss -> learn p x ss ss' -> cluster_law p (xs ++ [x]) ss'.

(** The discriminator of a slot: what training its images one by one gives. *)
Definition slot_disc (s : slot) (o : option disc) : Prop :=
  exists d, o = Some d /\ run (s_first s) (Train <$> s_seen s) = (Ok tt, d).

(** Cluster parameters that can learn images of n pixels. *)
Definition good_params (p : cparams) (n : Z) : Prop :=
  p_entrySize p = n /\ 2 <= p_addressSize p <= n /\ n + p_addressSize p <= INT_MAX /\ 2 <= p_base p /\
  fits (p_base p) (p_addressSize p) /\ p_limit p <= INT_MAX.

(** ** ClusWisard *)
(** The parameters of its clusters, for images of n pixels. *)
Definition params_for (k : cluswisard) (n : Z) : cparams :=
  CParams (k_addressSize k) n (k_minScore k) (k_threshold k) (k_limit k) (k_completeAddressing k)
          (k_ignoreZero k) (k_base k).
Definition configured_for (k : cluswisard) (n : Z) : Prop :=
  good_params (params_for k n) n /\ 1 <= k_threshold k <= INT_MAX /\ 1 <= k_limit k /\
  k_confidence k <= ram_count n (k_addressSize k) (k_completeAddressing k).

(** The votes owed to image x: one entry "label::j" per discriminator j of each label. *)
Definition owes (m : gmap str (list slot)) (x : image) (votes : gmap str (list Z)) : Prop :=
  forall key v, votes !! key = Some v <->
    exists l ss j s, m !! l = Some ss /\ ss !! j = Some s /\ key = l ++ lit "::" ++ to_string j /\ v = slot_votes s x.
(** The label owed to image x: that of the discriminator chosen by the bleaching rule. *)
Definition label_due (k : cluswisard) (m : gmap str (list slot)) (x : image) (l : str) : Prop :=
  exists votes cand ss j, owes m x votes /\
    (if k_bleachingActivated k then bleached (k_confidence k) votes cand else cand = tallies 1 votes) /\
    m !! l = Some ss /\ winner cand (l ++ lit "::" ++ to_string j).

(** What happens to a ClusWisard: an image with its label, or one whose label is guessed. *)
Inductive event := Given (l : str) (x : image) | Guessed (x : image).
Definition event_image (e : event) : image := match e with Given _ x => x | Guessed x => x end.
Inductive clus_law (k : cluswisard) (p : cparams) : list event -> gmap str (list slot) -> Prop :=
| clus_start : clus_law k p [] ∅
| clus_given es m l x ss :
    clus_law k p es m -> learn p x (default [] (m !! l)) ss ->
    clus_law k p (es ++ [Given l x]) (<[l := ss]> m)
| clus_guessed es m l x ss ss' :
    clus_law k p es m -> label_due k m x l -> m !! l = Some ss -> learn p x ss ss' ->
    clus_law k p (es ++ [Guessed x]) (<[l := ss']> m).

(** The events of a call; semi-supervised training guesses the labels of the first images, as
    many as there are unlabelled ones (see C70). *)
Definition events (c : kcall) : list event :=
  match c with
  | KTrain _ images labels => zip_with Given labels images
  | KSemi _ _ images labels =>
      ((fun x => Given x.2 x.1.2) <$> labelled labels images) ++
      (Guessed <$> take (length (unlabelled labels images)) images)
  | KUnsupervised _ _ => []
  end.
Definition all_events (cs : list kcall) : list event := List.concat (events <$> cs).
Definition proper_kcall (k : cluswisard) (n : Z) (c : kcall) : Prop :=
  Forall (fun e => plain_image (k_base k) n (event_image e) /\ match e with Given l _ => plain_label l | _ => True end) (events c) /\
  match c with
  | KTrain env images labels => images <> [] /\ len images = len labels /\ forall i, valid_draw (env i)
  | KSemi env env2 images labels =>
      len images <= INT_MAX /\ Z.of_nat (size labels) <= len images /\
      (Z.of_nat (size labels) < len images \/ forall i l, labels !! i = Some l -> 0 <= i < len images) /\
      labelled labels images <> [] /\ forall i, valid_draw (env i) /\ valid_draw (env2 i)
  | KUnsupervised _ _ => False
  end.
(** The discriminators of a cluster are those of the slots. *)
Definition holds (ss : list slot) (c : cluster) : Prop := Forall2 slot_disc ss (c_discs c).

(** ** Unsupervised *)
(** The parameters trainUnsupervised uses: base 2 whatever the configured base (see C74). *)
Definition unsupervised_params (k : cluswisard) (n : Z) : cparams :=
  CParams (k_addressSize k) n (k_minScore k) (k_threshold k) (k_limit k) (k_completeAddressing k)
          (k_ignoreZero k) 2.
(** The number owed to image x by unsupervised classification. *)
Definition number_due (k : cluswisard) (ss : list slot) (x : image) (r : str) : Prop :=
  exists votes cand j, (j < length ss)%nat /\ r = to_string j /\
    (forall key v, votes !! key = Some v <-> exists j s, ss !! j = Some s /\ key = to_string j /\ v = slot_votes s x) /\
    (if k_bleachingActivated k then bleached 1 votes cand else cand = tallies 1 votes) /\
    winner cand (to_string j).
