(** Model of the Python-facing classification outputs: src/wrappers/wisardwrapper.cc:46-106,
    src/wrappers/cluswisardwrapper.cc:41-92, and Bleaching::getConfidence. *)
From Verif Require Import Prelude Bytes Float32 Utils BinInput Bleaching DataSet Wisard Cluster ClusWisard.

(** What classify returns for one image: the label itself, or a dict with key "class" and the
    requested keys "activationDegree", "confidence", "classesDegrees". Labels are assumed to be
    valid UTF-8 (pybind11 raises UnicodeDecodeError otherwise). A C float becomes a Python
    float exactly. *)
Inductive pyout :=
| PyLabel (s : str)
| PyDict (class : str) (activationDegree confidence : option f32) (classesDegrees : option (list (str * f32))).

(** candidates[label], which inserts 0 when there is no such label
    (wisardwrapper.cc:52, 57; cluswisardwrapper.cc:57, 62). *)
Definition cand_get (candidates : gmap str Z) (label : str) : Z * gmap str Z :=
  match candidates !! label with
  | Some v => (v, candidates)
  | None => (0, <[label := 0]> candidates)
  end.

(** Bleaching::getConfidence, src/common/bleaching.cc:52-60: ints are converted to float in the
    comparison with secondBiggest, in the difference and in the quotient. *)
Fixpoint second_scan (biggest : Z) (l : list (str * Z)) (secondBiggest : f32) : f32 :=
  match l with
  | [] => secondBiggest
  | (_, v) :: l' =>
      second_scan biggest l'
        (if f32_leb secondBiggest (f32_of_Z v) && (v <? biggest) then f32_of_Z v else secondBiggest)
  end.
Definition getConfidence (candidates : gmap str Z) (biggest : Z) : f32 :=
  let secondBiggest := second_scan biggest (sorted_items candidates) f32_zero in
  f32_div (f32_sub (f32_of_Z biggest) secondBiggest) (f32_of_Z biggest).

(** getClassesDegrees, wisardwrapper.cc:79-90 and cluswisardwrapper.cc:81-92; [name] is what is
    shown of a key. *)
Definition degrees_total (l : list (str * Z)) : f32 :=
  foldl (fun t kv => f32_add t (f32_of_Z kv.2)) f32_zero l.
Definition getClassesDegrees (name : str -> str) (candidates : gmap str Z) : list (str * f32) :=
  let l := sorted_items candidates in
  let total := degrees_total l in
  let total := if f32_eqb total f32_zero then f32_one else total in
  (fun kv => (name kv.1, f32_div (f32_of_Z kv.2) total)) <$> l.

(** setClassifyOutput, wisardwrapper.cc:46-68, and the body of the loop of cluswisardwrapper.cc:51-71.
    [label] is the winning key, [name] what is shown of a key. *)
Definition classify_output (returnActivationDegree returnConfidence returnClassesDegrees : bool)
    (name : str -> str) (numberOfRAMS : f32) (label : str) (candidates : gmap str Z) : pyout :=
  if negb returnActivationDegree && negb returnConfidence && negb returnClassesDegrees then PyLabel (name label)
  else
    let '(activationDegree, candidates) :=
      if returnActivationDegree
      then let '(v, candidates) := cand_get candidates label in
           (Some (f32_div (f32_of_Z v) numberOfRAMS), candidates)
      else (None, candidates) in
    let '(confidence, candidates) :=
      if returnConfidence
      then let '(v, candidates) := cand_get candidates label in
           (Some (getConfidence candidates v), candidates)
      else (None, candidates) in
    PyDict (name label) activationDegree confidence
      (if returnClassesDegrees then Some (getClassesDegrees name candidates) else None).

(** _pyClassify, wisardwrapper.cc:92-105: images[0] is read before anything else (undefined for
    an empty list); the number of RAMs is computed from its size. *)
Definition py_classify (w : wisard) (images : list image) : res (list pyout) :=
  match images with
  | [] => UB UBIndex
  | im0 :: _ =>
      let* n := calculateNumberOfRams (s32 (im_size im0)) (w_addressSize w) (w_completeAddressing w) in
      rmapM (fun im =>
        let* candidates := wisard_candidates w im in
        Ok (classify_output (w_returnActivationDegree w) (w_returnConfidence w) (w_returnClassesDegrees w)
              (fun k => k) (f32_of_Z n) (getBiggestCandidate candidates) candidates)) images
  end.
(** pyClassify(DataSet), wisardwrapper.cc:74-76. *)
Definition py_classify_ds (w : wisard) (ds : dataset) : res (list pyout) :=
  py_classify w (bin_image <$> ds_data ds).

(** ClusWisardWrapper::pyClassify, cluswisardwrapper.cc:41-78. *)
Definition py_clus_classify (k : cluswisard) (images : list image) : res (list pyout) :=
  match images with
  | [] => UB UBIndex
  | im0 :: _ =>
      let* n := calculateNumberOfRams (s32 (im_size im0)) (k_addressSize k) (k_completeAddressing k) in
      rmapM (fun im =>
        let* candidates := clus_candidates k im (k_searchBestConfidence k) in
        Ok (classify_output (k_returnActivationDegree k) (k_returnConfidence k) (k_returnClassesDegrees k)
              before_colons (f32_of_Z n) (getBiggestCandidate candidates) candidates)) images
  end.
