(** The grammar of JSON (RFC 8259) and the value a text stands for (C147-C149), stated independently of the scanner and parser
    in JsonText.v. Characters are bytes; texts are UTF-8. *)
From Coq Require Import SpecFloat QArith Qcanon.
From Verif Require Import Prelude Bytes Float32 Json JsonText GrisuSpec SpecUtf8.
Local Open Scope Z_scope.

(** Insignificant white space, RFC 8259 section 2. *)
Definition blank (w : str) : Prop := Forall (fun c => c = to_char 32 \/ c = to_char 9 \/ c = to_char 10 \/ c = to_char 13) w.

(** ** Strings, section 7: the characters between the quotes and the string they denote *)
Definition utf8 (cp : Z) : str := to_char <$> SpecUtf8.encode cp.
Definition hex_digit (c : ascii) (v : Z) : Prop :=
  48 <= byte c <= 57 /\ v = byte c - 48 \/ 65 <= byte c <= 70 /\ v = byte c - 55 \/ 97 <= byte c <= 102 /\ v = byte c - 87.
Definition hex4 (h : str) (v : Z) : Prop := exists a b c d va vb vc vd, h = [a; b; c; d] /\
  hex_digit a va /\ hex_digit b vb /\ hex_digit c vc /\ hex_digit d vd /\ v = ((va * 16 + vb) * 16 + vc) * 16 + vd.
Definition short_escapes : list (ascii * ascii) :=
  [(to_char 34, to_char 34); (to_char 92, to_char 92); ("/"%char, "/"%char); ("b"%char, to_char 8); ("f"%char, to_char 12);
   ("n"%char, to_char 10); ("r"%char, to_char 13); ("t"%char, to_char 9)].
Inductive chars : str -> str -> Prop :=
| chars_end : chars [] []
| chars_plain cp raw s : scalar cp -> 32 <= cp -> cp <> 34 -> cp <> 92 -> chars raw s -> chars (utf8 cp ++ raw) (utf8 cp ++ s)
| chars_short e c raw s : (e, c) ∈ short_escapes -> chars raw s -> chars (to_char 92 :: e :: raw) (c :: s)
| chars_unicode h cp raw s : hex4 h cp -> scalar cp -> chars raw s -> chars (lit "\u" ++ h ++ raw) (utf8 cp ++ s)
| chars_pair h1 hi h2 lo raw s : hex4 h1 hi -> 0xD800 <= hi <= 0xDBFF -> hex4 h2 lo -> 0xDC00 <= lo <= 0xDFFF -> chars raw s ->
    chars (lit "\u" ++ h1 ++ lit "\u" ++ h2 ++ raw) (utf8 (0x10000 + (hi - 0xD800) * 1024 + (lo - 0xDC00)) ++ s).
Definition quoted (raw : str) : str := to_char 34 :: raw ++ [to_char 34].

(** ** Numbers, section 6 *)
Definition is_number_digit (c : ascii) : Prop := 48 <= byte c <= 57.
Definition natural (ds : str) : Z := fold_left (fun v c => 10 * v + (byte c - 48)) ds 0.
(** No superfluous leading zero. *)
Definition integer_part (ip : str) : Prop :=
  Forall is_number_digit ip /\ (ip = [to_char 48] \/ exists c ds, ip = c :: ds /\ c <> to_char 48).
Definition fraction (fr fp : str) : Prop :=
  fr = [] /\ fp = [] \/ fr = lit "." ++ fp /\ fp <> [] /\ Forall is_number_digit fp.
Inductive exponent : str -> Z -> Prop :=
| exponent_none : exponent [] 0
| exponent_some e sg ds : (e = "e"%char \/ e = "E"%char) -> (sg = [] \/ sg = lit "+" \/ sg = lit "-") -> ds <> [] -> Forall is_number_digit ds ->
    exponent (e :: sg ++ ds) (if decide (sg = lit "-") then - natural ds else natural ds).
(** An integer notation that fits 64 bits (signed or unsigned) is read as that integer, every other number as the double strtod
    gives for its decimal value; a number beyond the doubles is refused. *)
Inductive number (T : numtext) : str -> json -> Prop :=
| number_int sg ip : (sg = [] \/ sg = lit "-") -> integer_part ip ->
    let z := if decide (sg = lit "-") then - natural ip else natural ip in
    - 2 ^ 63 <= z < 2 ^ 64 -> number T (sg ++ ip) (JInt z)
| number_float sg ip fr fp ex x : (sg = [] \/ sg = lit "-") -> integer_part ip -> fraction fr fp -> exponent ex x ->
    (fr = [] -> ex = [] -> let z := if decide (sg = lit "-") then - natural ip else natural ip in ~ (- 2 ^ 63 <= z < 2 ^ 64)) ->
    let f := nearest T (bool_decide (sg = lit "-")) (decimal (natural (ip ++ fp)) (x - len fp)) in
    f32_finite f = true -> number T (sg ++ ip ++ fr ++ ex) (JFloat f).

(** ** Values, sections 3-5. An object is held sorted by name; of several members with the same name the first counts. *)
Fixpoint first_named (k : str) (ms : list (str * json)) : option json :=
  match ms with [] => None | (k', v) :: ms' => if decide (k' = k) then Some v else first_named k ms' end.
Definition object_of (ms l : list (str * json)) : Prop :=
  StronglySorted str_lt l.*1 /\ forall k, first_named k l = first_named k ms.
Inductive value (T : numtext) : str -> json -> Prop :=
| value_null : value T (lit "null") JNull
| value_true : value T (lit "true") (JBool true)
| value_false : value T (lit "false") (JBool false)
| value_string raw s : chars raw s -> value T (quoted raw) (JStr s)
| value_number t j : number T t j -> value T t j
| value_empty_array w : blank w -> value T (lit "[" ++ w ++ lit "]") (JArr [])
| value_array t l : elements T t l -> value T (lit "[" ++ t ++ lit "]") (JArr l)
| value_empty_object w : blank w -> value T (lit "{" ++ w ++ lit "}") (JObj [])
| value_object t ms l : members T t ms -> object_of ms l -> value T (lit "{" ++ t ++ lit "}") (JObj l)
with elements (T : numtext) : str -> list json -> Prop :=
| elements_one a t j b : blank a -> value T t j -> blank b -> elements T (a ++ t ++ b) [j]
| elements_more a t j b rest l : blank a -> value T t j -> blank b -> elements T rest l ->
    elements T (a ++ t ++ b ++ lit "," ++ rest) (j :: l)
with members (T : numtext) : str -> list (str * json) -> Prop :=
| members_one a raw k b c t j d : blank a -> chars raw k -> blank b -> blank c -> value T t j -> blank d ->
    members T (a ++ quoted raw ++ b ++ lit ":" ++ c ++ t ++ d) [(k, j)]
| members_more a raw k b c t j d rest ms : blank a -> chars raw k -> blank b -> blank c -> value T t j -> blank d -> members T rest ms ->
    members T (a ++ quoted raw ++ b ++ lit ":" ++ c ++ t ++ d ++ lit "," ++ rest) ((k, j) :: ms).
(** A JSON text: a value with white space around it. *)
Definition json_text (T : numtext) (text : str) (j : json) : Prop :=
  exists a t b, text = a ++ t ++ b /\ blank a /\ value T t j /\ blank b.

(** What is accepted besides (C148): a byte order mark in front, and a zero byte with anything after it behind. *)
Definition bom : str := [to_char 239; to_char 187; to_char 191].
Definition accepted (T : numtext) (text : str) (j : json) : Prop := exists b t tail, text = b ++ t ++ tail /\
  (b = [] \/ b = bom) /\ json_text T t j /\ (tail = [] \/ exists g, tail = to_char 0 :: g).
