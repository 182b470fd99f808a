(** Model of class Discriminator, src/models/wisard/discriminator.cc. *)
From Verif Require Import Prelude Bytes Base64 Utils BinInput Ram Json Fs RamData.

(** Members, discriminator.cc:367-369. *)
Record disc := Disc {
  d_entrySize : Z;
  d_count : Z;
  d_rams : list ram }.

(** Discriminator(), discriminator.cc:4. *)
Definition disc_default : disc := Disc 0 0 [].

(** The pseudo-random choices of one construction: the values returned by the successive
    std::rand() calls and the permutation applied by random_shuffle. *)
Record draw := Draw { dr_rand : nat -> Z; dr_shuffle : list Z -> list Z }.
(** What the C and C++ standards guarantee about them. *)
Definition valid_draw (dr : draw) : Prop :=
  (forall i, 0 <= dr_rand dr i <= INT_MAX) /\ (forall l, dr_shuffle dr l ≡ₚ l).

Definition entry_exn : exn :=
  EWisard "The entry size defined on creation of discriminator is different of entry size given as input!".
Definition base_exn : exn := EWisard "The base can't be lesser than 2!".
Definition addr_small_exn : exn := EWisard "The address size cann't be lesser than 2!".
Definition entry_small_exn : exn := EWisard "The entry size cann't be lesser than 2!".
Definition addr_big_exn : exn := EWisard "The address size cann't be bigger than entry size!".
Definition idx_len_exn : exn := EWisard "The list of indexes is not compatible with entry size!".
Definition idx_range_exn : exn := EWisard "The list of indexes has a index out of range of entry!".
Definition idx_repeat_exn : exn := EWisard "The list of indexes contain repeated indexes!".

(** checkEntrySize, discriminator.cc:324-328; the size_t argument is converted to int. *)
Definition checkEntrySize (entrySize size : Z) : res unit :=
  if entrySize =? s32 size then Ok tt else Throw entry_exn.

(** checkBase, discriminator.cc:330-334. *)
Definition checkBase (base : Z) : res unit :=
  if base <? 2 then Throw base_exn else Ok tt.

(** checkAddressSize, discriminator.cc:336-346. *)
Definition checkAddressSize (entrySize addressSize : Z) : res unit :=
  if addressSize <? 2 then Throw addr_small_exn
  else if entrySize <? 2 then Throw entry_small_exn
  else if entrySize <? addressSize then Throw addr_big_exn
  else Ok tt.

(** checkListOfIndexes, discriminator.cc:348-365; [seen] is the key set of [values]. *)
Fixpoint check_indexes_loop (l : list Z) (entrySize : Z) (seen : list Z) : res unit :=
  match l with
  | [] => Ok tt
  | i :: l' =>
      if entrySize <=? i then Throw idx_range_exn
      else if decide (i ∈ seen) then Throw idx_repeat_exn
      else check_indexes_loop l' entrySize (i :: seen)
  end.
Definition checkListOfIndexes (indexes : list Z) (entrySize : Z) : res unit :=
  if negb (s32 (len indexes) =? entrySize) then Throw idx_len_exn
  else check_indexes_loop indexes entrySize [].

(** std::vector<int>(indexes.begin()+i*addressSize, indexes.begin()+(i+1)*addressSize),
    discriminator.cc:193, 208. *)
Definition sub_indexes (indexes : list Z) (addressSize : Z) (i : nat) : list Z :=
  take (Z.to_nat addressSize) (drop (i * Z.to_nat addressSize) indexes).

(** The loops of discriminator.cc:192-195 and 207-210. *)
Definition make_rams (indexes : list Z) (addressSize : Z) (n : Z) (ignoreZero : bool) (base : Z)
  : res (list ram) :=
  rmapM (fun i => ram_new (sub_indexes indexes addressSize i) ignoreZero base) (seq 0 (Z.to_nat n)).

(** setRAMShuffle, discriminator.cc:168-196. *)
Definition setRAMShuffle (dr : draw) (entrySize addressSize : Z) (ignoreZero completeAddressing : bool)
    (base : Z) : res disc :=
  let* _ := checkAddressSize entrySize addressSize in
  let* _ := checkBase base in
  let numberOfRAMS := Z.quot entrySize addressSize in
  let remain := Z.rem entrySize addressSize in
  let extra := if completeAddressing && (0 <? remain) then addressSize - remain else 0 in
  let numberOfRAMS := if completeAddressing && (0 <? remain) then numberOfRAMS + 1 else numberOfRAMS in
  let* _ := int_of (entrySize + extra) in
  let* filler := rmapM (fun i => randint 0 (entrySize - 1) (dr_rand dr i)) (seq 0 (Z.to_nat extra)) in
  let indexes := dr_shuffle dr ((Z.of_nat <$> seq 0 (Z.to_nat entrySize)) ++ filler) in
  let* rams := make_rams indexes addressSize numberOfRAMS ignoreZero base in
  Ok (Disc entrySize 0 rams).

(** setRAMByIndex, discriminator.cc:198-211. *)
Definition setRAMByIndex (indexes : list Z) (entrySize addressSize : Z) (ignoreZero : bool) (base : Z)
  : res disc :=
  let* _ := checkAddressSize entrySize addressSize in
  let* _ := checkBase base in
  let* _ := checkListOfIndexes indexes entrySize in
  let* rams := make_rams indexes addressSize (Z.quot entrySize addressSize) ignoreZero base in
  Ok (Disc entrySize 0 rams).

(** setRAMByMapping, discriminator.cc:213-222. *)
Definition setRAMByMapping (mapping : list (list Z)) (entrySize : Z) (ignoreZero : bool) (base : Z)
  : res disc :=
  let* _ := checkBase base in
  let* rams := rmapM (fun addrs => ram_new addrs ignoreZero base) mapping in
  Ok (Disc entrySize 0 rams).

(** Discriminator(addressSize, entrySize, options), discriminator.cc:19-50 with the options
    already decoded, and DiscriminatorWrapper, src/wrappers/discriminatorwrapper.cc:5-43. *)
Definition disc_new (dr : draw) (addressSize entrySize : Z) (ignoreZero completeAddressing : bool)
    (indexes : list Z) (mapping : list (list Z)) (base : Z) : res disc :=
  if negb (Nat.eqb (length mapping) 0) then setRAMByMapping mapping entrySize ignoreZero base
  else if negb (Nat.eqb (length indexes) 0) then setRAMByIndex indexes entrySize addressSize ignoreZero base
  else setRAMShuffle dr entrySize addressSize ignoreZero completeAddressing base.

(** [value.is_null() ? d : value.get<T>()] (discriminator.cc:23-36, wisard.cc:9-43). *)
Definition jopt {A} (get : json -> res A) (d : A) (options : json) (k : str) : res A :=
  let* v := jfield options k in
  match v with JNull => Ok d | _ => get v end.

(** Discriminator(addressSize, entrySize, nl::json options), discriminator.cc:19-50. *)
Definition disc_of_options (dr : draw) (addressSize entrySize : Z) (options : json) : res disc :=
  let* ignoreZero := jopt jget_bool false options (lit "ignoreZero") in
  let* completeAddressing := jopt jget_bool true options (lit "completeAddressing") in
  let* indexes := jopt jget_ints [] options (lit "indexes") in
  let* mapping := jopt jget_intss [] options (lit "mapping") in
  let* base := jopt jget_int 2 options (lit "base") in
  disc_new dr addressSize entrySize ignoreZero completeAddressing indexes mapping base.

(** _classify, discriminator.cc:283-291. *)
Definition disc_classify (d : disc) (im : image) : res (list Z) :=
  let* _ := checkEntrySize (d_entrySize d) (im_size im) in
  rmapM (fun r => getVote r im) (d_rams d).

(** The RAM loop of train / untrain: RAMs before a failing one keep their update. *)
Fixpoint rams_update (f : ram -> eff ram unit) (rs : list ram) : eff (list ram) unit :=
  match rs with
  | [] => (Ok tt, [])
  | r :: rs' =>
      match f r with
      | (Ok _, r') => let '(o, rs'') := rams_update f rs' in (o, r' :: rs'')
      | (o, r') => (o, r' :: rs')
      end
  end.

(** train<T>, discriminator.cc:313-320: count++ happens before the RAMs are visited. *)
Definition disc_train (d : disc) (im : image) : eff disc unit :=
  match checkEntrySize (d_entrySize d) (im_size im) with
  | Ok _ =>
      match int_of (d_count d + 1) with
      | Ok c =>
          let '(o, rs) := rams_update (fun r => ram_train r im) (d_rams d) in
          (o, Disc (d_entrySize d) c rs)
      | _ => (UB UBOverflow, d)
      end
  | _ => (Throw entry_exn, d)
  end.

(** train(vector of images), discriminator.cc:80-84. *)
Definition disc_train_all (d : disc) (ims : list image) : eff disc unit := efor disc_train ims d.

(** untrain, discriminator.cc:86-92 (list images only). *)
Definition disc_untrain (d : disc) (im : image) : eff disc unit :=
  match checkEntrySize (d_entrySize d) (im_size im) with
  | Ok _ =>
      match int_of (d_count d - 1) with
      | Ok c =>
          let '(o, rs) := rams_update (fun r => ram_untrain r im) (d_rams d) in
          (o, Disc (d_entrySize d) c rs)
      | _ => (UB UBOverflow, d)
      end
  | _ => (Throw entry_exn, d)
  end.

(** getNumberOfTrainings, getNumberOfRAMS, discriminator.cc:94-100. *)
Definition getNumberOfTrainings (d : disc) : Z := d_count d.
Definition getNumberOfRAMS (d : disc) : Z := s32 (len (d_rams d)).

(** mentalImage[p[0]] += p[1], discriminator.cc:108. *)
Definition vadd (l : list Z) (p : Z * Z) : res (list Z) :=
  let* old := vget l p.1 in
  let* v := int_of (old + p.2) in
  Ok (<[Z.to_nat p.1 := v]> l).
Fixpoint vadds (l : list Z) (ps : list (Z * Z)) : res (list Z) :=
  match ps with
  | [] => Ok l
  | p :: ps' => let* l' := vadd l p in vadds l' ps'
  end.
(** getMentalImage, discriminator.cc:102-112; a negative size makes the vector constructor
    throw length_error. *)
Fixpoint mental_rams (iter : iteration) (rs : list ram) (l : list Z) : res (list Z) :=
  match rs with
  | [] => Ok l
  | r :: rs' =>
      let* piece := ram_mental iter r in
      let* l' := vadds l piece in
      mental_rams iter rs' l'
  end.
Definition disc_mental (iter : iteration) (d : disc) : res (list Z) :=
  if d_entrySize d <? 0 then Throw ELengthError
  else mental_rams iter (d_rams d) (replicate (Z.to_nat (d_entrySize d)) 0).

(** __version__, src/version.h:1. *)
Definition version : str := lit "1.6.3".

(** setMapping, discriminator.cc:293-298 with RAM::setMapping, ram.cc:85-91. *)
Definition disc_mapping (d : disc) : list (list Z) := r_addresses <$> d_rams d.

(** getConfig(all), discriminator.cc:300-311. *)
Definition disc_config (d : disc) (all : bool) : res json :=
  let config := jobject [ (lit "entrySize", JInt (d_entrySize d));
                          (lit "mapping", jintss (disc_mapping d)) ] in
  if all then jset config (lit "count") (JInt (d_count d)) else Ok config.

(** RAM::getConfig, ram.cc:72-78. *)
Definition ram_config (r : ram) : json :=
  jobject [ (lit "ignoreZero", JBool (r_ignoreZero r)); (lit "base", JInt (r_base r)) ].

(** if(!rams.empty()) config.merge_patch(rams[0].getConfig()), discriminator.cc:116-118, 126-128. *)
Definition merge_ram_config (d : disc) (config : json) : json :=
  match d_rams d with [] => config | r :: _ => merge_patch config (ram_config r) end.

(** getRAMsData(huge, prefix), discriminator.cc:260-281. [rnd] is the result of
    getRandomString(10) (utils.cc:11-21). *)
Fixpoint ramsdata_mem (iter : iteration) (rs : list ram) (data : str) : str :=
  match rs with
  | [] => data
  | r :: rs' =>
      ramsdata_mem iter rs'
        ((match data with [] => [] | _ => data ++ lit "." end) ++ ram_getData iter r)
  end.
(** What the stream of the huge branch receives, discriminator.cc:267-269. *)
Definition ramsdata_file (iter : iteration) (rs : list ram) : str :=
  List.concat (imap (fun i r => (if Nat.eqb i 0 then [] else lit ".") ++ ram_getData iter r) rs).
Definition getRAMsData (iter : iteration) (rnd : str) (f : fs) (d : disc) (huge : bool) (prefix : str)
  : str * fs :=
  if huge then
    let filename := prefix ++ rnd ++ ramdata_sufix in
    (filename, fs_append f filename (ramsdata_file iter (d_rams d)))
  else (ramsdata_mem iter (d_rams d) [], f).

(** json(huge,path), discriminator.cc:124-133: the value that is dumped. *)
Definition disc_json_value (iter : iteration) (rnd : str) (f : fs) (d : disc) (huge : bool) (path : str)
  : res json * fs :=
  let '(data, f') := getRAMsData iter rnd f d huge path in
  (let* config := disc_config d true in
   let config := merge_ram_config d config in
   let* config := jset config (lit "data") (JStr data) in
   jset config (lit "version") (JStr version), f').

(** json(huge,path) as text, represented by what parsing the text yields. *)
Definition disc_json (iter : iteration) (rnd : str) (f : fs) (d : disc) (huge : bool) (path : str)
  : res json * fs :=
  let '(r, f') := disc_json_value iter rnd f d huge path in
  (let* j := r in retext j, f').

(** jsonConfig(), discriminator.cc:114-122. *)
Definition disc_jsonConfig (d : disc) : res json :=
  let* config := disc_config d false in
  let config := merge_ram_config d config in
  let* config := jset config (lit "version") (JStr version) in
  retext config.

(** getConfigJSON and getJSON, discriminator.cc:142-153. *)
Definition disc_getConfigJSON (d : disc) : res json := disc_config d false.
Definition disc_getJSON (iter : iteration) (rnd : str) (f : fs) (d : disc) (huge : bool) (prefix : str)
  : res json * fs :=
  let '(data, f') := getRAMsData iter rnd f d huge prefix in
  (let* config := disc_config d true in jset config (lit "data") (JStr data), f').

(** RAM(base) with base = {addresses, data} patched by rbase, discriminator.cc:235-240, 249-255. *)
Definition ram_of_parts (f : fs) (rbase addresses : json) (data : str) : res ram :=
  ram_of_json f (merge_patch (jobject [ (lit "addresses", addresses); (lit "data", JStr data) ]) rbase).

(** File branch of setRAMsData, discriminator.cc:230-241; [eof] is the stream's eofbit. *)
Fixpoint rams_of_file (f : fs) (rbase : json) (mapping : list json) (content : str) (eof : bool)
  : res (list ram) :=
  match mapping with
  | [] => Ok []
  | m :: mapping' =>
      if eof then Ok []
      else
        let '(rdata, rest, eof') := getline "." content in
        let* r := ram_of_parts f rbase m rdata in
        let* rs := rams_of_file f rbase mapping' rest eof' in
        Ok (r :: rs)
  end.

(** In-memory branch, discriminator.cc:246-256: [int found] is -1 when there is no further
    '.', after which [pos] restarts at 0. *)
Fixpoint rams_of_data (f : fs) (rbase : json) (mapping : list json) (data : str) (pos : Z)
  : res (list ram) :=
  match mapping with
  | [] => Ok []
  | m :: mapping' =>
      let found := s32 (find_char "." data pos) in
      let* seg := substr data pos (found - pos) in
      let* pos' := int_of (found + 1) in
      let* r := ram_of_parts f rbase m seg in
      let* rs := rams_of_data f rbase mapping' data pos' in
      Ok (r :: rs)
  end.

(** setRAMsData, discriminator.cc:224-258. *)
Definition setRAMsData (f : fs) (mapping rbase : json) (data : str) : res (list ram) :=
  let* isfile := has_suffix data ramdata_sufix in
  if isfile then
    match fs_read f data with
    | Some content => rams_of_file f rbase (jvalues mapping) content false
    | None => Ok []
    end
  else rams_of_data f rbase (jvalues mapping) data 0.

(** Discriminator(nl::json), discriminator.cc:7-17. *)
Definition disc_of_json (f : fs) (config : json) : res disc :=
  let* v := jfield config (lit "entrySize") in let* entrySize := jget_int v in
  let* v := jfield config (lit "count") in let* count := jget_int v in
  let* v := jfield config (lit "data") in let* data := jget_str v in
  let* mapping := jfield config (lit "mapping") in
  let* ignoreZero := jfield config (lit "ignoreZero") in
  let* base := jfield config (lit "base") in
  let rbase := jobject [ (lit "ignoreZero", ignoreZero); (lit "base", base) ] in
  let* rams := setRAMsData f mapping rbase data in
  Ok (Disc entrySize count rams).
