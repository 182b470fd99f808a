(** The texts of json() and jsonConfig(), and the constructors that take one. Disc.v, Wisard.v and ClusWisard.v represent such a
    text by what parsing it yields; here it is the text itself. *)
From Verif Require Import Prelude Bytes Utils Float32 BinInput Bleaching Ram Json Fs RamData Disc Wisard Cluster ClusWisard JsonText.

(** Discriminator: json(huge,path), discriminator.cc:124-133; jsonConfig(), discriminator.cc:114-122; Discriminator(std::string),
    discriminator.cc:6. *)
Definition disc_json_text (iter : iteration) (rnd : str) (f : fs) (d : disc) (huge : bool) (path : str) : res str * fs :=
  let '(r, f') := disc_json_value iter rnd f d huge path in
  (let* j := r in json_dump j, f').
Definition disc_jsonConfig_text (d : disc) : res str :=
  let* config := disc_config d false in
  let config := merge_ram_config d config in
  let* config := jset config (lit "version") (JStr version) in
  json_dump2 config.
Definition disc_of_text (T : numtext) (f : fs) (text : str) : res disc :=
  let* j := json_parse T text in disc_of_json f j.

(** Wisard: json(huge,path), wisard.cc:134-138; jsonConfig(), wisard.cc:128-132; Wisard(std::string), wisard.cc:46-60 (the text
    is parsed twice, with the same result). *)
Definition wisard_json_text (iter : iteration) (rnd : str -> str) (f : fs) (w : wisard) (huge : bool) (path : str) : res str * fs :=
  let '(r, f') := classes_json iter rnd huge path (sorted_items (w_discriminators w)) JNull f in
  (let* classes := r in
   let* config := jset (wisard_config w) (lit "classes") classes in
   json_dump config, f').
Definition wisard_jsonConfig_text (w : wisard) : res str :=
  let* classes := config_classes (sorted_items (w_discriminators w)) JNull in
  let* config := jset (wisard_config w) (lit "classes") classes in
  json_dump2 config.
Definition wisard_of_text (T : numtext) (f : fs) (text : str) : res wisard :=
  let* j := json_parse T text in wisard_of_json f j.

(** ClusWisard: json(huge,path), cluswisard.cc:183-192; jsonConfig(), cluswisard.cc:178-181; ClusWisard(std::string),
    cluswisard.cc:45-76. *)
Definition clus_json_text (iter : iteration) (rnd : str -> nat -> str) (urnd : nat -> str) (f : fs) (k : cluswisard)
    (huge : bool) (path : str) : res str * fs :=
  let '(r, f1) :=
    if Nat.eqb (size (k_clusters k)) 0 then (Ok (clus_config k), f)
    else let '(r, f1) := clusters_json iter rnd huge path (sorted_items (k_clusters k)) JNull f in
         (let* cs := r in jset (clus_config k) (lit "clusters") cs, f1) in
  match r with
  | Ok config =>
      if Nat.eqb (length (c_discs (k_unsupervised k))) 0 then (json_dump config, f1)
      else let '(r, f2) := cluster_getJson iter urnd f1 (k_unsupervised k) huge (path ++ lit "unsupervised_cluster__") in
           (let* u := r in let* config := jset config (lit "unsupervisedCluster") u in json_dump config, f2)
  | Throw e => (Throw e, f1)
  | UB u => (UB u, f1)
  | Hang => (Hang, f1)
  end.
Definition clus_jsonConfig_text (k : cluswisard) : res str := json_dump2 (clus_config k).
Definition clus_of_text (T : numtext) (f : fs) (text : str) : res cluswisard :=
  let* j := json_parse T text in clus_of_json f j.
