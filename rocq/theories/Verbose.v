(** Model of what the package writes to std::cout when [verbose] is set. Each function returns what the
    corresponding function of Wisard.v, ClusWisard.v or Wrapper.v returns, and the text written. Writing
    itself never fails here (std::cout does not throw by default). *)
From Verif Require Import Prelude Bytes Utils Float32 BinInput Bleaching DataSet Disc Wisard Cluster ClusWisard Wrapper.

(** [if(verbose) std::cout << "\r<what> " << i+1 << " of " << n;] (wisard.cc:80, 90, 114, 162,
    cluswisard.cc:85, 100, 118, 139, 154, wisardwrapper.cc:98, cluswisardwrapper.cc:46). *)
Definition say_progress (verbose : bool) (what : str) (i : nat) (n : Z) : str :=
  if verbose then to_char 13 :: what ++ lit " " ++ Bytes.to_string (Z.of_nat i + 1) ++ lit " of " ++ Bytes.to_string n else [].
(** [if(verbose) std::cout << "\r" << std::endl;] (wisard.cc:93, 117, 166, cluswisard.cc:88, 113, 121, 147,
    162, wisardwrapper.cc:103, cluswisardwrapper.cc:76). *)
Definition say_end (verbose : bool) : str := if verbose then [to_char 13; to_char 10] else [].

(** The shape shared by the loops: write, then do the work of index [i]. *)
Fixpoint loud {S X} (verbose : bool) (what : str) (n : Z) (step : S -> nat -> X -> eff S unit)
    (i : nat) (xs : list X) (s : S) : eff S unit * str :=
  match xs with
  | [] => ((Ok tt, s), [])
  | x :: xs' =>
      let t := say_progress verbose what i n in
      match step s i x with
      | (Ok _, s') => let '(r, t') := loud verbose what n step (Datatypes.S i) xs' s' in (r, t ++ t')
      | r => (r, t)
      end
  end.
(** The line is ended when the loop is done. *)
Definition then_end {S} (verbose : bool) (p : eff S unit * str) : eff S unit * str :=
  match p with
  | ((Ok _, s), t) => ((Ok tt, s), t ++ say_end verbose)
  | _ => p
  end.
(** Checks first: if one fails nothing is written. *)
Definition checked {S} (s : S) (c : res unit) (p : eff S unit * str) : eff S unit * str :=
  match c with
  | Ok _ => p
  | Throw e => ((Throw e, s), [])
  | UB u => ((UB u, s), [])
  | Hang => ((Hang, s), [])
  end.

(** train(images, labels), wisard.cc:85-94. *)
Definition wisard_train_say (lhs_first : bool) (env : str -> draw) (w : wisard)
    (images : list image) (labels : list str) : eff wisard unit * str :=
  match images with
  | [] => ((UB UBIndex, w), [])
  | im0 :: _ =>
      checked w (let* numberOfRAMS := calculateNumberOfRams (s32 (im_size im0)) (w_addressSize w) (w_completeAddressing w) in
                 let* _ := checkConfidence (w_confidence w) numberOfRAMS in
                 checkInputSizes (len images) (len labels))
        (then_end (w_verbose w)
           (loud (w_verbose w) (lit "training") (len images)
              (fun w i im => match labels !! i with Some l => wisard_train1 lhs_first env w im l | None => (UB UBIndex, w) end)
              0 images w))
  end.
(** train(DataSet), wisard.cc:76-83: the line is not ended. *)
Definition wisard_train_ds_say (lhs_first : bool) (env : str -> draw) (w : wisard) (ds : dataset) : eff wisard unit * str :=
  match ds_data ds with
  | [] => ((UB UBIndex, w), [])
  | b0 :: _ =>
      checked w (let* numberOfRAMS := calculateNumberOfRams (s32 (bin_size b0)) (w_addressSize w) (w_completeAddressing w) in
                 checkConfidence (w_confidence w) numberOfRAMS)
        (loud (w_verbose w) (lit "training") (len (ds_data ds))
           (fun w i b => match ds_getLabel ds (Z.of_nat i) with
                         | Ok l => wisard_train1 lhs_first env w (bin_image b) l
                         | _ => (Throw EOutOfRange, w) end)
           0 (ds_data ds) w)
  end.
(** leaveMoreOut, wisard.cc:111-118. *)
Definition leaveMoreOut_say (w : wisard) (images : list image) (labels : list str) : eff wisard unit * str :=
  checked w (checkInputSizes (len images) (len labels))
    (then_end (w_verbose w)
       (loud (w_verbose w) (lit "untraining") (len images)
          (fun w i im => match labels !! i with Some l => leaveOneOut w im l | None => (UB UBIndex, w) end) 0 images w)).

(** The loops that fill a vector of answers. *)
Definition classify_say {A} (verbose : bool) (what : str) (f : image -> res A) (images : list image) : res (list A) * str :=
  let '((o, labels), t) :=
    then_end verbose
      (loud verbose what (len images)
         (fun labels _ im => match f im with
                             | Ok a => (Ok tt, labels ++ [a])
                             | Throw e => (Throw e, labels)
                             | UB u => (UB u, labels)
                             | Hang => (Hang, labels) end) 0 images []) in
  (let* _ := o in Ok labels, t).
(** _classify, wisard.cc:156-168; classify(DataSet), wisard.cc:100-102. *)
Definition wisard_classify_say (w : wisard) (images : list image) : res (list str) * str :=
  classify_say (w_verbose w) (lit "classifying") (wisard_classify1 w) images.
(** _pyClassify, wisardwrapper.cc:92-105. *)
Definition py_classify_say (w : wisard) (images : list image) : res (list pyout) * str :=
  match images with
  | [] => (UB UBIndex, [])
  | im0 :: _ =>
      match calculateNumberOfRams (s32 (im_size im0)) (w_addressSize w) (w_completeAddressing w) with
      | Ok n => classify_say (w_verbose w) (lit "classifying") (fun im =>
          let* candidates := wisard_candidates w im in
          Ok (classify_output (w_returnActivationDegree w) (w_returnConfidence w) (w_returnClassesDegrees w)
                (fun k => k) (f32_of_Z n) (getBiggestCandidate candidates) candidates)) images
      | Throw e => (Throw e, []) | UB u => (UB u, []) | Hang => (Hang, [])
      end
  end.

(** ClusWisard: train(images, labels), cluswisard.cc:79-89. *)
Definition clus_train_say (lhs_first : bool) (env : nat -> draw) (k : cluswisard)
    (images : list image) (labels : list str) : eff cluswisard unit * str :=
  match images with
  | [] => ((UB UBIndex, k), [])
  | im0 :: _ =>
      checked k (let* _ := clus_first_checks k im0 in checkInputSizes (len images) (len labels))
        (then_end (k_verbose k)
           (loud (k_verbose k) (lit "training") (len images)
              (fun k i im => match labels !! i with Some l => clus_train1 lhs_first (env i) k im l | None => (UB UBIndex, k) end)
              0 images k))
  end.
(** train(images, map), cluswisard.cc:91-123: two loops, each ended by a line end. The state of the first
    is the classifier with labelless.size() and j. *)
Definition semi_step (lhs_first : bool) (env : nat -> draw) (labels : gmap Z str)
    (s : cluswisard * Z * Z) (i : nat) (im : image) : eff (cluswisard * Z * Z) unit :=
  let '(k, ls, j) := s in
  match labels !! s32 (Z.of_nat i) with
  | None => if u64 (ls - 1) <? j then (Ok tt, (k, ls + 1, j + 1))
            else if j <? ls then (Ok tt, (k, ls, j + 1)) else (UB UBIndex, s)
  | Some l => let '(o, k') := clus_train1 lhs_first (env i) k im l in (o, (k', ls, j))
  end.
Definition clus_train_semi_say (lhs_first : bool) (env env2 : nat -> draw) (k : cluswisard)
    (images : list image) (labels : gmap Z str) : eff cluswisard unit * str :=
  match images with
  | [] => ((UB UBIndex, k), [])
  | im0 :: _ =>
      checked k (let* _ := clus_first_checks k im0 in
                 if s32 (len images) <? s32 (Z.of_nat (size labels)) then Throw many_labels_exn else Ok tt)
        (let '((o, (k1, ls, _)), t1) :=
           then_end (k_verbose k)
             (loud (k_verbose k) (lit "training supervised") (len images) (semi_step lhs_first env labels)
                0 images (k, u32 (len images - Z.of_nat (size labels)), 0)) in
         match o with
         | Ok _ =>
             if s32 ls =? s32 (len images) then ((Throw no_index_exn, k1), t1)
             else
               let '(r, t2) :=
                 then_end (k_verbose k)
                   (loud (k_verbose k) (lit "training unsupervised") ls
                      (fun k i _ => ebind (elift k (vget images (Z.of_nat i)))
                                          (fun im k => clus_train_unlabelled lhs_first (env2 i) k im))
                      0 (seq 0 (Z.to_nat ls)) k1) in
               (r, t1 ++ t2)
         | _ => ((o, k1), t1)
         end)
  end.
(** classify, cluswisard.cc:135-149; classifyUnsupervised, cluswisard.cc:151-164. *)
Definition clus_classify_say (k : cluswisard) (images : list image) : res (list str) * str :=
  classify_say (k_verbose k) (lit "classifying") (clus_classify1 k) images.
Definition clus_classifyUnsupervised_say (k : cluswisard) (images : list image) : res (list str) * str :=
  classify_say (k_verbose k) (lit "classifying unsupervised") (clus_classifyUnsupervised1 k) images.
(** ClusWisardWrapper::pyClassify, cluswisardwrapper.cc:41-78. *)
Definition py_clus_classify_say (k : cluswisard) (images : list image) : res (list pyout) * str :=
  match images with
  | [] => (UB UBIndex, [])
  | im0 :: _ =>
      match calculateNumberOfRams (s32 (im_size im0)) (k_addressSize k) (k_completeAddressing k) with
      | Ok n => classify_say (k_verbose k) (lit "classifying") (fun im =>
          let* candidates := clus_candidates k im (k_searchBestConfidence k) in
          Ok (classify_output (k_returnActivationDegree k) (k_returnConfidence k) (k_returnClassesDegrees k)
                before_colons (f32_of_Z n) (getBiggestCandidate candidates) candidates)) images
      | Throw e => (Throw e, []) | UB u => (UB u, []) | Hang => (Hang, [])
      end
  end.
