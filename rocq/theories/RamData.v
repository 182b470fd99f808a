(** Model of class RAMDataHandle, src/models/wisard/ramdatahandle.cc, and of the RAM
    constructor from JSON, src/models/wisard/ram.cc:5-13. *)
From Verif Require Import Prelude Bytes Base64 Utils BinInput Ram Json Fs.

(** ramdata, ramdatahandle.cc:69: std::unordered_map<int,ram_t>. *)
Notation handle := (gmap Z (gmap Z Z)) (only parsing).

(** ramdata[r] as an rvalue: the entry, created empty when absent. *)
Definition touch (h : handle) (r : Z) : gmap Z Z * handle :=
  match h !! r with
  | Some m => (m, h)
  | None => (∅, <[r := ∅]> h)
  end.

(** get(r,addr), ramdatahandle.cc:10-12: operator[] inserts missing entries.
    The int address is converted to addr_t. *)
Definition handle_get (h : handle) (r addr : Z) : Z * handle :=
  let '(m, h) := touch h r in
  match m !! u64 addr with
  | Some v => (v, h)
  | None => (0, <[r := <[u64 addr := 0]> m]> h)
  end.

(** get(r), ramdatahandle.cc:14-16. *)
Definition handle_get_ram (h : handle) (r : Z) : gmap Z Z * handle := touch h r.

(** set(r,addr,value), ramdatahandle.cc:18-20. *)
Definition handle_set (h : handle) (r addr value : Z) : handle :=
  let '(m, h) := touch h r in <[r := <[u64 addr := value]> m]> h.

(** compare, ramdatahandle.cc:22-34 (the order of iteration does not matter for the
    boolean result; the code returns at the first difference). *)
Definition ram_included (m o : gmap Z Z) : bool :=
  forallb (fun kv => match o !! kv.1 with Some v => kv.2 =? v | None => false end) (map_to_list m).
Definition handle_compare (h o : handle) : bool :=
  if negb (Nat.eqb (size h) (size o)) then false
  else forallb (fun km => match o !! km.1 with
                          | None => false
                          | Some mo => Nat.eqb (size km.2) (size mo) && ram_included km.2 mo
                          end) (map_to_list h).

(** data(r), ramdatahandle.cc:44-54: blocks of 8+4 bytes in iteration order. *)
Definition ram_bytes (entries : list (Z * Z)) : str :=
  List.concat ((fun kv => bytes_of_addr kv.1 ++ bytes_of_content kv.2) <$> entries).
Definition ram_text (iter : iteration) (m : gmap Z Z) : str := encode (ram_bytes (iter m)).
Definition handle_data_ram (iter : iteration) (h : handle) (r : Z) : str * handle :=
  let '(m, h) := touch h r in (ram_text iter m, h).

(** data(), ramdatahandle.cc:36-42. The bound ramdata.size() is re-read at every
    iteration and data(i) may insert entry i; [i] is an unsigned int converted to
    int by the call. [fuel] bounds the number of iterations. *)
Fixpoint handle_data_loop (fuel : nat) (iter : iteration) (h : handle) (i : Z) (out : str)
  : res (str * handle) :=
  if i <? Z.of_nat (size h) then
    match fuel with
    | O => Hang
    | S fuel' =>
        let '(d, h) := handle_data_ram iter h (s32 i) in
        handle_data_loop fuel' iter h (u32 (i + 1)) (out ++ (if i =? 0 then [] else lit ".") ++ d)
    end
  else Ok (out, h).
Definition handle_data (fuel : nat) (iter : iteration) (h : handle) : res (str * handle) :=
  handle_data_loop fuel iter h 0 [].

(** dataToRam, ramdatahandle.cc:98-110: 12-byte blocks; a later block for the same
    address overwrites. A decoded size that is not a multiple of 12 gives an empty RAM. *)
Fixpoint blocks_fuel (fuel : nat) (s : str) (m : gmap Z Z) : gmap Z Z :=
  match fuel, s with
  | _, [] => m
  | O, _ => m
  | S fuel', _ =>
      blocks_fuel fuel' (drop 12 s)
        (<[addr_of_bytes (take 8 s) := content_of_bytes (take 4 (drop 8 s))]> m)
  end.
Definition dataToRam (inputdata : str) : res (gmap Z Z) :=
  let* decoded := decode inputdata in
  if negb (len decoded mod 12 =? 0) then Ok ∅
  else Ok (blocks_fuel (length decoded) decoded ∅).

(** ramdata_sufix, src/common/definetypes.cc:7. *)
Definition ramdata_sufix : str := lit ".wdpkg".
(** The test of ramdatahandle.cc:72-73 / discriminator.cc:225-226: substr throws
    out_of_range when the text is shorter than the suffix (size_t wrap-around). *)
Definition has_suffix (data sufix : str) : res bool :=
  let* e := substr data (len data - len sufix) (len sufix) in
  Ok (bool_decide (e = sufix)).

(** ramdata[ramdata.size()] = dataToRam(...), over the fields read from a file
    (ramdatahandle.cc:77-83). *)
Fixpoint push_fields (fs : list str) (h : handle) : res handle :=
  match fs with
  | [] => Ok h
  | f :: fs' =>
      let* m := dataToRam f in
      push_fields fs' (<[Z.of_nat (size h) := m]> h)
  end.

(** The in-memory branch, ramdatahandle.cc:88-94: [found] is an unsigned int, [pos] an int. *)
Fixpoint setData_loop (fuel : nat) (s : str) (pos found : Z) (h : handle) : res handle :=
  if found <? len s then
    match fuel with
    | O => Hang
    | S fuel' =>
        let found := u32 (find_char "." s pos) in
        let* seg := substr s pos (u32 (found - pos)) in
        let* m := dataToRam seg in
        setData_loop fuel' s (s32 (found + 1)) found (<[Z.of_nat (size h) := m]> h)
    end
  else Ok h.

(** RAMDataHandle(std::string) / setData, ramdatahandle.cc:3-5, 71-96. *)
Definition handle_of_text (f : fs) (inputdata : str) : res handle :=
  let* isfile := has_suffix inputdata ramdata_sufix in
  if isfile then
    match fs_read f inputdata with
    | Some content => push_fields (fields "." content) ∅
    | None => Ok ∅
    end
  else setData_loop (S (length inputdata)) inputdata 0 0 ∅.

(** RAM::getData, ram.cc:80-83. *)
Definition ram_getData (iter : iteration) (r : ram) : str := ram_text iter (r_positions r).

(** RAM(nl::json), ram.cc:5-13. *)
Definition ram_of_json (f : fs) (c : json) : res ram :=
  let* v := jfield c (lit "ignoreZero") in let* ignoreZero := jget_bool v in
  let* v := jfield c (lit "base") in let* base := jget_int v in
  let* v := jfield c (lit "addresses") in let* addresses := jget_ints v in
  let* _ := checkLimitAddressSize (s32 (len addresses)) base in
  let* v := jfield c (lit "data") in let* data := jget_str v in
  let* h := handle_of_text f data in
  Ok (Ram addresses (fst (handle_get_ram h 0)) ignoreZero base).
