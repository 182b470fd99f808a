(** JSON values as used through nlohmann::json (src/libs/json.hpp, 3.1.2).
    Only the value-level operations the package calls are modelled. *)
From Coq Require Import SpecFloat.
From Verif Require Import Prelude Bytes Float32.

(** Numbers: integers are kept as Z (number_integer / number_unsigned); a
    number_float is a double. *)
Inductive json :=
| JNull
| JBool (b : bool)
| JInt (z : Z)
| JFloat (f : f64)
| JStr (s : str)
| JArr (l : list json)
| JObj (l : list (str * json)).

(** Lookup in an object's members. *)
Fixpoint assoc (k : str) (l : list (str * json)) : option json :=
  match l with
  | [] => None
  | (k', v) :: l' => if decide (k' = k) then Some v else assoc k l'
  end.

(** j[key] read on a non-const value (json.hpp:12741-12759): null becomes an object,
    a missing key yields null; any other type throws type_error 305. The insertion
    of the null member is not observable where the package uses it. *)
Definition jfield (j : json) (k : str) : res json :=
  match j with
  | JNull => Ok JNull
  | JObj l => Ok (match assoc k l with Some v => v | None => JNull end)
  | _ => Throw EJsonType
  end.

(** Insertion/replacement of a member; members are kept in ascending key order
    (object_t is a std::map). *)
Fixpoint jinsert (k : str) (v : json) (l : list (str * json)) : list (str * json) :=
  match l with
  | [] => [(k, v)]
  | (k', v') :: l' =>
      if decide (k = k') then (k, v) :: l'
      else if str_leb k k' then (k, v) :: l
      else (k', v') :: jinsert k v l'
  end.
Definition jremove (k : str) (l : list (str * json)) : list (str * json) :=
  filter (fun kv => kv.1 <> k) l.

(** j[key] = v (json.hpp:12741-12759). *)
Definition jset (j : json) (k : str) (v : json) : res json :=
  match j with
  | JNull => Ok (JObj [(k, v)])
  | JObj l => Ok (JObj (jinsert k v l))
  | _ => Throw EJsonType
  end.

(** Object built from an initializer list of (key, value) pairs. *)
Definition jobject (l : list (str * json)) : json :=
  JObj (foldr (fun kv acc => jinsert kv.1 kv.2 acc) [] (rev l)).

(** merge_patch (json.hpp:17130-17153, RFC 7396), on the members of an object patch. *)
Fixpoint merge_patch (target patch : json) {struct patch} : json :=
  match patch with
  | JObj pl =>
      let tl := match target with JObj tl => tl | _ => [] end in
      JObj ((fix go (pl : list (str * json)) (tl : list (str * json)) {struct pl} :=
               match pl with
               | [] => tl
               | (k, v) :: pl' =>
                   match v with
                   | JNull => go pl' (jremove k tl)
                   | _ => go pl' (jinsert k (merge_patch (match assoc k tl with Some t => t | None => JNull end) v) tl)
                   end
               end) pl tl)
  | _ => patch
  end.

(** get<bool>, json.hpp:939-947. *)
Definition jget_bool (j : json) : res bool :=
  match j with JBool b => Ok b | _ => Throw EJsonType end.
(** get<std::string>, json.hpp:949-957. *)
Definition jget_str (j : json) : res str :=
  match j with JStr s => Ok s | _ => Throw EJsonType end.
(** get<int>, json.hpp:1107-1146 (static_cast; a float out of range is undefined). *)
Definition jget_int (j : json) : res Z :=
  match j with
  | JInt z => Ok (s32 z)
  | JBool b => Ok (if b then 1 else 0)
  | JFloat f => match f32_trunc f with
                | Some z => if in_int z then Ok z else UB UBCast
                | None => UB UBCast end
  | _ => Throw EJsonType
  end.
(** get<unsigned int>. *)
Definition jget_uint (j : json) : res Z :=
  match j with
  | JInt z => Ok (u32 z)
  | JBool b => Ok (if b then 1 else 0)
  | JFloat f => match f32_trunc f with
                | Some z => if (0 <=? z) && (z <? W32) then Ok z else UB UBCast
                | None => UB UBCast end
  | _ => Throw EJsonType
  end.
(** get<float>. *)
Definition jget_float (j : json) : res f32 :=
  match j with
  | JInt z => Ok (f32_of_Z z)
  | JBool b => Ok (f32_of_Z (if b then 1 else 0))
  | JFloat f => Ok (f32_of_f64 f)
  | _ => Throw EJsonType
  end.
(** get<std::vector<int>>, json.hpp:1066-1085. *)
Definition jget_ints (j : json) : res (list Z) :=
  match j with JArr l => rmapM jget_int l | _ => Throw EJsonType end.
(** get<std::vector<std::vector<int>>>. *)
Definition jget_intss (j : json) : res (list (list Z)) :=
  match j with JArr l => rmapM jget_ints l | _ => Throw EJsonType end.
(** get<std::map<std::string,std::vector<std::vector<int>>>>, json.hpp:1087-1105. *)
Definition jget_mappings (j : json) : res (gmap str (list (list Z))) :=
  match j with
  | JObj l =>
      let* kvs := rmapM (fun kv => let* m := jget_intss kv.2 in Ok (kv.1, m)) l in
      Ok (list_to_map kvs)
  | _ => Throw EJsonType
  end.

Definition jints (l : list Z) : json := JArr (JInt <$> l).
Definition jintss (l : list (list Z)) : json := JArr (jints <$> l).

(** Values visited by [for(it = j.begin(); it != j.end(); ++it)]: elements of an
    array, members of an object, the value itself for a primitive, nothing for null. *)
Definition jvalues (j : json) : list json :=
  match j with
  | JNull => []
  | JArr l => l
  | JObj l => snd <$> l
  | _ => [j]
  end.
(** Same with it.key(), which only works on objects (throws invalid_iterator otherwise;
    reported here as a JSON exception). *)
Definition jmembers (j : json) : res (list (str * json)) :=
  match j with
  | JNull => Ok []
  | JArr [] => Ok []
  | JObj l => Ok l
  | _ => Throw EJsonType
  end.

(** UTF-8 validity as checked by dump (serializer::decode table, json.hpp:8788-8806;
    dump_escaped throws type_error 316 otherwise). State 0 accepts, 1 rejects. *)
Definition utf8_type (b : Z) : Z :=
  if b <? 128 then 0
  else if b <? 144 then 1
  else if b <? 160 then 9
  else if b <? 192 then 7
  else if b <? 194 then 8
  else if b <? 224 then 2
  else if b =? 224 then 10
  else if b =? 237 then 4
  else if b <? 240 then 3
  else if b =? 240 then 11
  else if b <? 244 then 6
  else if b =? 244 then 5
  else 8.
Definition utf8_table : list Z :=
  [ 0; 1; 2; 3; 5; 8; 7; 1; 1; 1; 4; 6; 1; 1; 1; 1;
    1; 1; 1; 1; 1; 1; 1; 1; 1; 1; 1; 1; 1; 1; 1; 1;
    1; 0; 1; 1; 1; 1; 1; 0; 1; 0; 1; 1; 1; 1; 1; 1;
    1; 2; 1; 1; 1; 1; 1; 2; 1; 2; 1; 1; 1; 1; 1; 1;
    1; 1; 1; 1; 1; 1; 1; 2; 1; 1; 1; 1; 1; 1; 1; 1;
    1; 2; 1; 1; 1; 1; 1; 1; 1; 2; 1; 1; 1; 1; 1; 1;
    1; 1; 1; 1; 1; 1; 1; 3; 1; 3; 1; 1; 1; 1; 1; 1;
    1; 3; 1; 1; 1; 1; 1; 3; 1; 3; 1; 1; 1; 1; 1; 1;
    1; 3; 1; 1; 1; 1; 1; 1; 1; 1; 1; 1; 1; 1; 1; 1 ].
Definition utf8_step (state : Z) (c : ascii) : Z :=
  nth (Z.to_nat (state * 16 + utf8_type (byte c))) utf8_table 1.
Definition utf8_ok (s : str) : bool := foldl utf8_step 0 s =? 0.

(** What [json::parse(j.dump())] yields. The text layer of nlohmann::json is trusted to
    be faithful, with the two exceptions visible in dump: strings that are not
    UTF-8 make dump throw type_error 316, and non-finite floats are written as null
    (json.hpp dump_float). The text itself is represented by this value. *)
Fixpoint retext (j : json) : res json :=
  match j with
  | JNull | JBool _ | JInt _ => Ok j
  | JFloat f => Ok (if f32_finite f then j else JNull)
  | JStr s => if utf8_ok s then Ok j else Throw EJsonType
  | JArr l => let* l' := (fix go l := match l with
                          | [] => Ok []
                          | x :: xs => let* y := retext x in let* ys := go xs in Ok (y :: ys)
                          end) l in Ok (JArr l')
  | JObj l => let* l' := (fix go l := match l with
                          | [] => Ok []
                          | (k, x) :: xs =>
                              if utf8_ok k then
                                let* y := retext x in let* ys := go xs in Ok ((k, y) :: ys)
                              else Throw EJsonType
                          end) l in Ok (JObj l')
  end.
