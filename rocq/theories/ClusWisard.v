(** Model of class ClusWisard, src/models/cluswisard/cluswisard.cc. *)
From Verif Require Import Prelude Bytes Utils BinInput Float32 Bleaching Ram Json Fs RamData Disc Wisard Cluster.

(** Members, cluswisard.cc:320-335. *)
Record cluswisard := ClusWisard {
  k_addressSize : Z;
  k_minScore : f32;
  k_threshold : Z;
  k_limit : Z;
  k_bleachingActivated : bool;
  k_verbose : bool;
  k_completeAddressing : bool;
  k_ignoreZero : bool;
  k_base : Z;
  k_searchBestConfidence : bool;
  k_returnConfidence : bool;
  k_returnActivationDegree : bool;
  k_returnClassesDegrees : bool;
  k_confidence : Z;
  k_clusters : gmap str cluster;
  k_unsupervised : cluster }.

Definition with_clusters (k : cluswisard) (m : gmap str cluster) : cluswisard :=
  ClusWisard (k_addressSize k) (k_minScore k) (k_threshold k) (k_limit k) (k_bleachingActivated k)
    (k_verbose k) (k_completeAddressing k) (k_ignoreZero k) (k_base k) (k_searchBestConfidence k)
    (k_returnConfidence k) (k_returnActivationDegree k) (k_returnClassesDegrees k) (k_confidence k)
    m (k_unsupervised k).
Definition with_unsupervised (k : cluswisard) (c : cluster) : cluswisard :=
  ClusWisard (k_addressSize k) (k_minScore k) (k_threshold k) (k_limit k) (k_bleachingActivated k)
    (k_verbose k) (k_completeAddressing k) (k_ignoreZero k) (k_base k) (k_searchBestConfidence k)
    (k_returnConfidence k) (k_returnActivationDegree k) (k_returnClassesDegrees k) (k_confidence k)
    (k_clusters k) c.

Definition minscore_exn : exn := EWisard "min score must be between 0 and 1 inclusive!".
Definition threshold_exn : exn := EWisard "threshold must be bigger than 0!".
Definition limit_exn_k : exn := EWisard "discriminators limit must be bigger than 0!".
Definition many_labels_exn : exn := EWisard "The total of labels given is bigger than the inputs given!".
Definition no_index_exn : exn := EWisard "There is no valid index in the input labels!".

(** checkConfigInputs, cluswisard.cc:263-273. *)
Definition checkConfigInputs (minScore : f32) (threshold limit : Z) : res unit :=
  if f32_ltb minScore f32_zero || f32_ltb f32_one minScore then Throw minscore_exn
  else if threshold <? 1 then Throw threshold_exn
  else if limit <? 1 then Throw limit_exn_k
  else Ok tt.

(** ClusWisard(addressSize, minScore, threshold, discriminatorsLimit, options), cluswisard.cc:7-44. *)
Definition clus_of_options (addressSize : Z) (minScore : f32) (threshold limit : Z) (c : json) : res cluswisard :=
  let* bleachingActivated := jopt jget_bool true c (lit "bleachingActivated") in
  let* verbose := jopt jget_bool false c (lit "verbose") in
  let* ignoreZero := jopt jget_bool false c (lit "ignoreZero") in
  let* completeAddressing := jopt jget_bool true c (lit "completeAddressing") in
  let* base := jopt jget_int 2 c (lit "base") in
  let* confidence := jopt jget_int 1 c (lit "confidence") in
  let* searchBestConfidence := jopt jget_bool false c (lit "searchBestConfidence") in
  let* returnConfidence := jopt jget_bool false c (lit "returnConfidence") in
  let* returnActivationDegree := jopt jget_bool false c (lit "returnActivationDegree") in
  let* returnClassesDegrees := jopt jget_bool false c (lit "returnClassesDegrees") in
  let* _ := checkConfigInputs minScore threshold limit in
  Ok (ClusWisard addressSize minScore threshold limit bleachingActivated verbose completeAddressing
        ignoreZero base searchBestConfidence returnConfidence returnActivationDegree
        returnClassesDegrees confidence ∅ cluster_default).

(** makeClusters, cluswisard.cc:287-289 (the constructor cannot throw). *)
Definition new_cluster (k : cluswisard) (entrySize base : Z) : cluster :=
  cluster_new entrySize (k_addressSize k) (k_minScore k) (k_threshold k) (k_limit k)
    (k_completeAddressing k) (k_ignoreZero k) base.
Definition makeClusters (k : cluswisard) (label : str) (entrySize : Z) : cluswisard :=
  with_clusters k (<[label := new_cluster k entrySize (k_base k)]> (k_clusters k)).

(** clusters[label].train(image): operator[] creates a default Cluster if there is none. *)
Definition at_cluster (f : cluster -> eff cluster unit) (k : cluswisard) (label : str) : eff cluswisard unit :=
  let '(o, c') := f (default cluster_default (k_clusters k !! label)) in
  (o, with_clusters k (<[label := c']> (k_clusters k))).

(** train(image,label), cluswisard.cc:215-220. *)
Definition clus_train1 (lhs_first : bool) (dr : draw) (k : cluswisard) (im : image) (label : str)
  : eff cluswisard unit :=
  let k' := match k_clusters k !! label with
            | None => makeClusters k label (s32 (im_size im))
            | Some _ => k
            end in
  at_cluster (fun c => cluster_train lhs_first dr c im) k' label.

(** The loop of cluswisard.cc:84-87; [env i] are the random choices of the i-th image. *)
Fixpoint clus_train_loop (lhs_first : bool) (env : nat -> draw) (i : nat) (k : cluswisard)
    (images : list image) (labels : list str) : eff cluswisard unit :=
  match images, labels with
  | [], _ => (Ok tt, k)
  | _ :: _, [] => (UB UBIndex, k)
  | im :: images', l :: labels' =>
      ebind (clus_train1 lhs_first (env i) k im l)
            (fun _ k => clus_train_loop lhs_first env (S i) k images' labels')
  end.

(** calculateNumberOfRams and checkConfidence of cluswisard.cc:80-81, 92-93. *)
Definition clus_first_checks (k : cluswisard) (im0 : image) : res unit :=
  let* numberOfRAMS := calculateNumberOfRams (s32 (im_size im0)) (k_addressSize k) (k_completeAddressing k) in
  checkConfidence (k_confidence k) numberOfRAMS.

(** train(images, labels), cluswisard.cc:79-89. *)
Definition clus_train (lhs_first : bool) (env : nat -> draw) (k : cluswisard)
    (images : list image) (labels : list str) : eff cluswisard unit :=
  match images with
  | [] => (UB UBIndex, k)
  | im0 :: _ =>
      ebind (elift k (let* _ := clus_first_checks k im0 in checkInputSizes (len images) (len labels)))
            (fun _ k => clus_train_loop lhs_first env 0 k images labels)
  end.

(** label.substr(0, label.find("::")). *)
Fixpoint before_colons (s : str) : str :=
  match s with
  | [] => []
  | c :: s' =>
      match s' with
      | c' :: _ => if decide (c = ":"%char /\ c' = ":"%char) then [] else c :: before_colons s'
      | [] => [c]
      end
  end.

(** classify(image), cluswisard.cc:229-240: keys label::0, label::1, ... *)
Definition cluster_key (label : str) (j : nat) : str := label ++ lit "::" ++ to_string j.
Definition clus_votes (clusters : gmap str cluster) (im : image) : res (gmap str (list Z)) :=
  let* vss := rmapM (fun kc => let* vs := cluster_classify kc.2 im in
                               Ok (imap (fun j v => (cluster_key kc.1 j, v)) vs)) (sorted_items clusters) in
  Ok (list_to_map (rev (List.concat vss))).
Definition clus_candidates (k : cluswisard) (im : image) (searchBestConfidence : bool) : res (gmap str Z) :=
  let* allvotes := clus_votes (k_clusters k) im in
  bleaching_make allvotes (k_bleachingActivated k) searchBestConfidence (k_confidence k).

(** classify(images), cluswisard.cc:134-150. *)
Definition clus_classify1 (k : cluswisard) (im : image) : res str :=
  let* candidates := clus_candidates k im (k_searchBestConfidence k) in
  Ok (before_colons (getBiggestCandidate candidates)).
Definition clus_classify (k : cluswisard) (images : list image) : res (list str) :=
  rmapM (clus_classify1 k) images.

(** train(image) without label, cluswisard.cc:222-227. *)
Definition clus_train_unlabelled (lhs_first : bool) (dr : draw) (k : cluswisard) (im : image)
  : eff cluswisard unit :=
  ebind (elift k (clus_candidates k im false))
        (fun candidates k =>
           at_cluster (fun c => cluster_train lhs_first dr c im) k (before_colons (getBiggestCandidate candidates))).

(** The first loop of train(images, map), cluswisard.cc:96-113: [ls] is labelless.size() and
    the result is its final value; what is written into labelless is never read. *)
Fixpoint semi_loop (lhs_first : bool) (env : nat -> draw) (labels : gmap Z str) (i : nat) (ls j : Z)
    (images : list image) (k : cluswisard) : eff cluswisard Z :=
  match images with
  | [] => (Ok ls, k)
  | im :: images' =>
      match labels !! s32 (Z.of_nat i) with
      | None =>
          if u64 (ls - 1) <? j then semi_loop lhs_first env labels (S i) (ls + 1) (j + 1) images' k
          else if j <? ls then semi_loop lhs_first env labels (S i) ls (j + 1) images' k
          else (UB UBIndex, k)
      | Some l =>
          ebind (clus_train1 lhs_first (env i) k im l)
                (fun _ k => semi_loop lhs_first env labels (S i) ls j images' k)
      end
  end.
(** The second loop, cluswisard.cc:117-120: it trains images[i], not images[labelless[i]]. *)
Definition semi_unlabelled (lhs_first : bool) (env : nat -> draw) (images : list image) (n : Z) (k : cluswisard)
  : eff cluswisard unit :=
  efor (fun k i => ebind (elift k (vget images (Z.of_nat i)))
                         (fun im k => clus_train_unlabelled lhs_first (env i) k im))
       (seq 0 (Z.to_nat n)) k.
(** train(images, map), cluswisard.cc:91-123. [env], [env2]: random choices of the two loops. *)
Definition clus_train_semi (lhs_first : bool) (env env2 : nat -> draw) (k : cluswisard)
    (images : list image) (labels : gmap Z str) : eff cluswisard unit :=
  match images with
  | [] => (UB UBIndex, k)
  | im0 :: _ =>
      ebind (elift k (let* _ := clus_first_checks k im0 in
                      if s32 (len images) <? s32 (Z.of_nat (size labels)) then Throw many_labels_exn else Ok tt))
        (fun _ k =>
           ebind (semi_loop lhs_first env labels 0 (u32 (len images - Z.of_nat (size labels))) 0 images k)
             (fun ls k =>
                if s32 ls =? s32 (len images) then (Throw no_index_exn, k)
                else semi_unlabelled lhs_first env2 images ls k))
  end.

(** trainUnsupervised, cluswisard.cc:125-132: the cluster is replaced whenever there are no
    supervised clusters, and gets the default base. *)
Definition at_unsupervised (f : cluster -> eff cluster unit) (k : cluswisard) : eff cluswisard unit :=
  let '(o, c') := f (k_unsupervised k) in (o, with_unsupervised k c').
Definition trainUnsupervised (lhs_first : bool) (env : nat -> draw) (k : cluswisard) (images : list image)
  : eff cluswisard unit :=
  let go k := at_unsupervised (fun c =>
    efor (fun c iim => cluster_train lhs_first (env iim.1) c iim.2) (imap pair images) c) k in
  if Nat.eqb (size (k_clusters k)) 0 then
    match images with
    | [] => (UB UBIndex, k)
    | im0 :: _ => go (with_unsupervised k (new_cluster k (s32 (im_size im0)) 2))
    end
  else go k.

(** classifyUnsupervised, cluswisard.cc:151-164, 242-249: default confidence 1. *)
Definition clus_classifyUnsupervised1 (k : cluswisard) (im : image) : res str :=
  let* vs := cluster_classify (k_unsupervised k) im in
  let* candidates := bleaching_make (list_to_map (rev (imap (fun j v => (to_string j, v)) vs)))
                       (k_bleachingActivated k) false 1 in
  Ok (before_colons (getBiggestCandidate candidates)).
Definition clus_classifyUnsupervised (k : cluswisard) (images : list image) : res (list str) :=
  rmapM (clus_classifyUnsupervised1 k) images.

(** getMentalImage(label), cluswisard.cc:166-168: operator[] creates the cluster if needed. *)
Definition clus_mental1 (iter : iteration) (k : cluswisard) (label : str) : eff cluswisard (list (list Z)) :=
  let c := default cluster_default (k_clusters k !! label) in
  (cluster_mental iter c, with_clusters k (<[label := c]> (k_clusters k))).
(** getMentalImages, cluswisard.cc:170-176. *)
Definition clus_mental (iter : iteration) (k : cluswisard) : res (gmap str (list (list Z))) :=
  let* ms := rmapM (fun kc => let* m := cluster_mental iter kc.2 in Ok (kc.1, m)) (sorted_items (k_clusters k)) in
  Ok (list_to_map ms).

(** getConfig, cluswisard.cc:299-318. *)
Definition clus_config (k : cluswisard) : json :=
  jobject [ (lit "version", JStr version);
            (lit "addressSize", JInt (k_addressSize k));
            (lit "minScore", JFloat (f64_of_f32 (k_minScore k)));
            (lit "threshold", JInt (k_threshold k));
            (lit "discriminatorsLimit", JInt (k_limit k));
            (lit "bleachingActivated", JBool (k_bleachingActivated k));
            (lit "verbose", JBool (k_verbose k));
            (lit "ignoreZero", JBool (k_ignoreZero k));
            (lit "completeAddressing", JBool (k_completeAddressing k));
            (lit "base", JInt (k_base k));
            (lit "confidence", JInt (k_confidence k));
            (lit "returnConfidence", JBool (k_returnConfidence k));
            (lit "returnActivationDegree", JBool (k_returnActivationDegree k));
            (lit "returnClassesDegrees", JBool (k_returnClassesDegrees k)) ].

(** getClustersJson, cluswisard.cc:291-297. [rnd label i]: random part of a file name. *)
Fixpoint clusters_json (iter : iteration) (rnd : str -> nat -> str) (huge : bool) (path : str)
    (l : list (str * cluster)) (c : json) (f : fs) : res json * fs :=
  match l with
  | [] => (Ok c, f)
  | (k, cl) :: l' =>
      let '(r, f') := cluster_getJson iter (rnd k) f cl huge (path ++ k ++ lit "__") in
      match (let* j := r in jset c k j) with
      | Ok c' => clusters_json iter rnd huge path l' c' f'
      | Throw e => (Throw e, f')
      | UB u => (UB u, f')
      | Hang => (Hang, f')
      end
  end.

(** json(huge,path), cluswisard.cc:183-192. *)
Definition clus_json (iter : iteration) (rnd : str -> nat -> str) (urnd : nat -> str) (f : fs) (k : cluswisard)
    (huge : bool) (path : str) : res json * fs :=
  let '(r, f1) :=
    if Nat.eqb (size (k_clusters k)) 0 then (Ok (clus_config k), f)
    else let '(r, f1) := clusters_json iter rnd huge path (sorted_items (k_clusters k)) JNull f in
         (let* cs := r in jset (clus_config k) (lit "clusters") cs, f1) in
  match r with
  | Ok config =>
      if Nat.eqb (length (c_discs (k_unsupervised k))) 0 then (retext config, f1)
      else let '(r, f2) := cluster_getJson iter urnd f1 (k_unsupervised k) huge (path ++ lit "unsupervised_cluster__") in
           (let* u := r in let* config := jset config (lit "unsupervisedCluster") u in retext config, f2)
  | Throw e => (Throw e, f1)
  | UB u => (UB u, f1)
  | Hang => (Hang, f1)
  end.
(** jsonConfig, cluswisard.cc:178-181. *)
Definition clus_jsonConfig (k : cluswisard) : res json := retext (clus_config k).

(** ClusWisard(std::string), cluswisard.cc:45-76, on the parsed text. *)
Fixpoint load_clusters (f : fs) (dConfig : json) (l : list (str * json)) (m : gmap str cluster)
  : res (gmap str cluster) :=
  match l with
  | [] => Ok m
  | (k, d) :: l' =>
      let* c := cluster_of_json f (merge_patch d dConfig) in
      load_clusters f dConfig l' (<[k := c]> m)
  end.
Definition clus_of_json (f : fs) (c : json) : res cluswisard :=
  let* k := clus_of_options 0 f32_zero 1 1 c in
  let* v := jfield c (lit "addressSize") in let* addressSize := jget_int v in
  let* v := jfield c (lit "minScore") in let* minScore := jget_float v in
  let* v := jfield c (lit "threshold") in let* threshold := jget_int v in
  let* v := jfield c (lit "discriminatorsLimit") in let* limit := jget_int v in
  let dConfig := jobject [ (lit "addressSize", JInt addressSize); (lit "minScore", JFloat (f64_of_f32 minScore));
                           (lit "threshold", JInt threshold); (lit "discriminatorsLimit", JInt limit);
                           (lit "completeAddressing", JBool (k_completeAddressing k));
                           (lit "ignoreZero", JBool (k_ignoreZero k)); (lit "base", JInt (k_base k)) ] in
  let* classes := jfield c (lit "clusters") in
  let* clusters := match classes with
                   | JNull => Ok ∅
                   | _ => let* ms := jmembers classes in load_clusters f dConfig ms ∅
                   end in
  let* uc := jfield c (lit "unsupervisedCluster") in
  let* u := match uc with JNull => Ok cluster_default | _ => cluster_of_json f (merge_patch uc dConfig) end in
  Ok (ClusWisard addressSize minScore threshold limit (k_bleachingActivated k) (k_verbose k)
        (k_completeAddressing k) (k_ignoreZero k) (k_base k) (k_searchBestConfidence k)
        (k_returnConfidence k) (k_returnActivationDegree k) (k_returnClassesDegrees k) (k_confidence k)
        clusters u).
