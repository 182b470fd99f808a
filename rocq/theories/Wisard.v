(** Model of class Wisard, src/models/wisard/wisard.cc. *)
From Verif Require Import Prelude Bytes Base64 Utils BinInput Bleaching Ram Json Fs RamData Disc DataSet.

(** Members, wisard.cc:251-264. *)
Record wisard := Wisard {
  w_addressSize : Z;
  w_bleachingActivated : bool;
  w_verbose : bool;
  w_mapping : gmap str (list (list Z));
  w_indexes : list Z;
  w_ignoreZero : bool;
  w_completeAddressing : bool;
  w_base : Z;
  w_searchBestConfidence : bool;
  w_returnConfidence : bool;
  w_returnActivationDegree : bool;
  w_returnClassesDegrees : bool;
  w_confidence : Z;
  w_discriminators : gmap str disc }.

Definition with_discriminators (w : wisard) (m : gmap str disc) : wisard :=
  Wisard (w_addressSize w) (w_bleachingActivated w) (w_verbose w) (w_mapping w) (w_indexes w)
    (w_ignoreZero w) (w_completeAddressing w) (w_base w) (w_searchBestConfidence w)
    (w_returnConfidence w) (w_returnActivationDegree w) (w_returnClassesDegrees w)
    (w_confidence w) m.

(** Wisard(addressSize, nl::json), wisard.cc:5-44. *)
Definition wisard_of_options (addressSize : Z) (c : json) : res wisard :=
  let* bleachingActivated := jopt jget_bool true c (lit "bleachingActivated") in
  let* verbose := jopt jget_bool false c (lit "verbose") in
  let* ignoreZero := jopt jget_bool false c (lit "ignoreZero") in
  let* completeAddressing := jopt jget_bool true c (lit "completeAddressing") in
  let* mapping := jopt jget_mappings ∅ c (lit "mapping") in
  let* indexes := jopt jget_ints [] c (lit "indexes") in
  let* base := jopt jget_int 2 c (lit "base") in
  let* confidence := jopt jget_int 1 c (lit "confidence") in
  let* searchBestConfidence := jopt jget_bool false c (lit "searchBestConfidence") in
  let* returnConfidence := jopt jget_bool false c (lit "returnConfidence") in
  let* returnActivationDegree := jopt jget_bool false c (lit "returnActivationDegree") in
  let* returnClassesDegrees := jopt jget_bool false c (lit "returnClassesDegrees") in
  Ok (Wisard addressSize bleachingActivated verbose mapping indexes ignoreZero completeAddressing
        base searchBestConfidence returnConfidence returnActivationDegree returnClassesDegrees
        confidence ∅).

Definition sizes_exn : exn := EWisard "The size of data is not the same of the size of labels!".
Definition confidence_exn : exn := EWisard "The confidence can not be bigger than number of RAMs!".

(** checkInputSizes, wisard.cc:239-243 (size_t arguments converted to int). *)
Definition checkInputSizes (imageSize labelsSize : Z) : res unit :=
  if s32 imageSize =? s32 labelsSize then Ok tt else Throw sizes_exn.

(** checkConfidence, wisard.cc:245-249. *)
Definition checkConfidence (confidence numberOfRAMS : Z) : res unit :=
  if numberOfRAMS <? confidence then Throw confidence_exn else Ok tt.

(** The three constructor calls of makeDiscriminator, wisard.cc:223-237. *)
Definition construct_discriminator (dr : draw) (w : wisard) (label : str) (entrySize : Z) : res disc :=
  match w_mapping w !! label with
  | Some m => setRAMByMapping m entrySize (w_ignoreZero w) (w_base w)
  | None =>
      if negb (Nat.eqb (length (w_indexes w)) 0)
      then setRAMByIndex (w_indexes w) entrySize (w_addressSize w) (w_ignoreZero w) (w_base w)
      else setRAMShuffle dr entrySize (w_addressSize w) (w_ignoreZero w) (w_completeAddressing w) (w_base w)
  end.

(** makeDiscriminator, wisard.cc:223-237: [discriminators[label] = Discriminator(...)]. Before
    C++17 (setup.py:69-79 asks for C++14) the order of evaluation of the two operands is
    unspecified: with [lhs_first] the map entry (a default Discriminator) is created before
    the constructor runs and survives if it throws. *)
Definition makeDiscriminator (lhs_first : bool) (dr : draw) (w : wisard) (label : str) (entrySize : Z)
  : eff wisard unit :=
  match construct_discriminator dr w label entrySize with
  | Ok d => (Ok tt, with_discriminators w (<[label := d]> (w_discriminators w)))
  | Throw e =>
      (Throw e, if lhs_first
                then with_discriminators w (<[label := disc_default]> (w_discriminators w)) else w)
  | UB u => (UB u, w)
  | Hang => (Hang, w)
  end.

(** discriminators[label].train(image) / d->second.untrain(image) on an existing entry. *)
Definition at_label (f : disc -> eff disc unit) (w : wisard) (label : str) : eff wisard unit :=
  match w_discriminators w !! label with
  | Some d => let '(o, d') := f d in (o, with_discriminators w (<[label := d']> (w_discriminators w)))
  | None => (UB UBNull, w)
  end.

(** train(image,label), wisard.cc:148-154. [env] gives the random choices used if a
    discriminator is created for a label during this call. *)
Definition wisard_train1 (lhs_first : bool) (env : str -> draw) (w : wisard) (im : image) (label : str)
  : eff wisard unit :=
  match w_discriminators w !! label with
  | None =>
      ebind (makeDiscriminator lhs_first (env label) w label (s32 (im_size im)))
            (fun _ w => at_label (fun d => disc_train d im) w label)
  | Some _ => at_label (fun d => disc_train d im) w label
  end.

(** The loop of wisard.cc:89-92: images[i] with labels[i]. *)
Fixpoint wisard_train_loop (lhs_first : bool) (env : str -> draw) (w : wisard)
    (images : list image) (labels : list str) : eff wisard unit :=
  match images, labels with
  | [], _ => (Ok tt, w)
  | _ :: _, [] => (UB UBIndex, w)
  | im :: images', l :: labels' =>
      ebind (wisard_train1 lhs_first env w im l)
            (fun _ w => wisard_train_loop lhs_first env w images' labels')
  end.

(** train(images, labels), wisard.cc:85-94: images[0] is read before any check. *)
Definition wisard_train (lhs_first : bool) (env : str -> draw) (w : wisard)
    (images : list image) (labels : list str) : eff wisard unit :=
  match images with
  | [] => (UB UBIndex, w)
  | im0 :: _ =>
      match calculateNumberOfRams (s32 (im_size im0)) (w_addressSize w) (w_completeAddressing w) with
      | Ok numberOfRAMS =>
          match checkConfidence (w_confidence w) numberOfRAMS with
          | Ok _ =>
              match checkInputSizes (len images) (len labels) with
              | Ok _ => wisard_train_loop lhs_first env w images labels
              | _ => (Throw sizes_exn, w)
              end
          | _ => (Throw confidence_exn, w)
          end
      | _ => (UB UBDivZero, w)
      end
  end.

(** train(DataSet), wisard.cc:76-83; the label is looked up before each training. *)
Fixpoint wisard_train_ds_loop (lhs_first : bool) (env : str -> draw) (ds : dataset)
    (data : list bininput) (i : Z) (w : wisard) : eff wisard unit :=
  match data with
  | [] => (Ok tt, w)
  | b :: data' =>
      match ds_getLabel ds i with
      | Ok l => ebind (wisard_train1 lhs_first env w (bin_image b) l)
                      (fun _ w => wisard_train_ds_loop lhs_first env ds data' (i + 1) w)
      | _ => (Throw EOutOfRange, w)
      end
  end.
Definition wisard_train_ds (lhs_first : bool) (env : str -> draw) (w : wisard) (ds : dataset)
  : eff wisard unit :=
  match ds_data ds with
  | [] => (UB UBIndex, w)
  | b0 :: _ =>
      match calculateNumberOfRams (s32 (bin_size b0)) (w_addressSize w) (w_completeAddressing w) with
      | Ok numberOfRAMS =>
          match checkConfidence (w_confidence w) numberOfRAMS with
          | Ok _ => wisard_train_ds_loop lhs_first env ds (ds_data ds) 0 w
          | _ => (Throw confidence_exn, w)
          end
      | _ => (UB UBDivZero, w)
      end
  end.

(** leaveOneOut, wisard.cc:104-109. *)
Definition leaveOneOut (w : wisard) (im : image) (label : str) : eff wisard unit :=
  match w_discriminators w !! label with
  | Some _ => at_label (fun d => disc_untrain d im) w label
  | None => (Ok tt, w)
  end.

(** leaveMoreOut, wisard.cc:111-118. *)
Fixpoint leaveMoreOut_loop (w : wisard) (images : list image) (labels : list str) : eff wisard unit :=
  match images, labels with
  | [], _ => (Ok tt, w)
  | _ :: _, [] => (UB UBIndex, w)
  | im :: images', l :: labels' =>
      ebind (leaveOneOut w im l) (fun _ w => leaveMoreOut_loop w images' labels')
  end.
Definition leaveMoreOut (w : wisard) (images : list image) (labels : list str) : eff wisard unit :=
  match checkInputSizes (len images) (len labels) with
  | Ok _ => leaveMoreOut_loop w images labels
  | _ => (Throw sizes_exn, w)
  end.

(** __classify, wisard.cc:178-186: votes of every discriminator, then Bleaching::make. *)
Definition all_votes (discs : gmap str disc) (im : image) : res (gmap str (list Z)) :=
  let* vs := rmapM (fun kd => let* v := disc_classify kd.2 im in Ok (kd.1, v)) (sorted_items discs) in
  Ok (list_to_map vs).
Definition wisard_candidates (w : wisard) (im : image) : res (gmap str Z) :=
  let* allvotes := all_votes (w_discriminators w) im in
  bleaching_make allvotes (w_bleachingActivated w) (w_searchBestConfidence w) (w_confidence w).

(** _classify, wisard.cc:156-168. *)
Definition wisard_classify1 (w : wisard) (im : image) : res str :=
  let* candidates := wisard_candidates w im in Ok (getBiggestCandidate candidates).
Definition wisard_classify (w : wisard) (images : list image) : res (list str) :=
  rmapM (wisard_classify1 w) images.
(** classify(DataSet), wisard.cc:100-102. *)
Definition wisard_classify_ds (w : wisard) (ds : dataset) : res (list str) :=
  wisard_classify w (bin_image <$> ds_data ds).

(** getMentalImages, wisard.cc:120-126. *)
Definition wisard_mental (iter : iteration) (w : wisard) : res (gmap str (list Z)) :=
  let* ms := rmapM (fun kd => let* m := disc_mental iter kd.2 in Ok (kd.1, m))
                   (sorted_items (w_discriminators w)) in
  Ok (list_to_map ms).

(** getConfig, wisard.cc:204-221: mapping and searchBestConfidence are not written. *)
Definition wisard_config (w : wisard) : json :=
  jobject [ (lit "version", JStr version);
            (lit "addressSize", JInt (w_addressSize w));
            (lit "bleachingActivated", JBool (w_bleachingActivated w));
            (lit "verbose", JBool (w_verbose w));
            (lit "indexes", jints (w_indexes w));
            (lit "ignoreZero", JBool (w_ignoreZero w));
            (lit "completeAddressing", JBool (w_completeAddressing w));
            (lit "base", JInt (w_base w));
            (lit "confidence", JInt (w_confidence w));
            (lit "returnConfidence", JBool (w_returnConfidence w));
            (lit "returnActivationDegree", JBool (w_returnActivationDegree w));
            (lit "returnClassesDegrees", JBool (w_returnClassesDegrees w)) ].

(** getClassesJSON, wisard.cc:188-194; files of different labels are written in map order.
    [rnd] gives getRandomString(10) for each label. *)
Fixpoint classes_json (iter : iteration) (rnd : str -> str) (huge : bool) (path : str)
    (l : list (str * disc)) (c : json) (f : fs) : res json * fs :=
  match l with
  | [] => (Ok c, f)
  | (k, d) :: l' =>
      let '(r, f') := disc_getJSON iter (rnd k) f d huge (path ++ k ++ lit "__") in
      match (let* j := r in jset c k j) with
      | Ok c' => classes_json iter rnd huge path l' c' f'
      | Throw e => (Throw e, f')
      | UB u => (UB u, f')
      | Hang => (Hang, f')
      end
  end.

(** json(huge,path), wisard.cc:134-138. *)
Definition wisard_json (iter : iteration) (rnd : str -> str) (f : fs) (w : wisard) (huge : bool) (path : str)
  : res json * fs :=
  let '(r, f') := classes_json iter rnd huge path (sorted_items (w_discriminators w)) JNull f in
  (let* classes := r in
   let* config := jset (wisard_config w) (lit "classes") classes in
   retext config, f').

(** getConfigClassesJSON and jsonConfig, wisard.cc:128-132, 196-202. *)
Fixpoint config_classes (l : list (str * disc)) (c : json) : res json :=
  match l with
  | [] => Ok c
  | (k, d) :: l' =>
      let* j := disc_getConfigJSON d in
      let* c' := jset c k j in config_classes l' c'
  end.
Definition wisard_jsonConfig (w : wisard) : res json :=
  let* classes := config_classes (sorted_items (w_discriminators w)) JNull in
  let* config := jset (wisard_config w) (lit "classes") classes in
  retext config.

(** Wisard(std::string), wisard.cc:46-60, on the parsed text. *)
Fixpoint load_classes (f : fs) (dConfig : json) (l : list (str * json)) (m : gmap str disc)
  : res (gmap str disc) :=
  match l with
  | [] => Ok m
  | (k, d) :: l' =>
      let* disc := disc_of_json f (merge_patch d dConfig) in
      load_classes f dConfig l' (<[k := disc]> m)
  end.
Definition wisard_of_json (f : fs) (c : json) : res wisard :=
  let* w := wisard_of_options 0 c in
  let* v := jfield c (lit "addressSize") in let* addressSize := jget_int v in
  let* classes := jfield c (lit "classes") in
  let dConfig := jobject [ (lit "ignoreZero", JBool (w_ignoreZero w));
                           (lit "base", JInt (w_base w)) ] in
  let* ms := jmembers classes in
  let* discs := load_classes f dConfig ms ∅ in
  Ok (Wisard addressSize (w_bleachingActivated w) (w_verbose w) (w_mapping w) (w_indexes w)
        (w_ignoreZero w) (w_completeAddressing w) (w_base w) (w_searchBestConfidence w)
        (w_returnConfidence w) (w_returnActivationDegree w) (w_returnClassesDegrees w)
        (w_confidence w) discs).
