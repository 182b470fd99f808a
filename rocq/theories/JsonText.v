(** The text layer of nlohmann::json (src/libs/json.hpp, 3.1.2): the serializer behind dump() and
    the lexer and parser behind json::parse, as far as the package uses them (no callback,
    ensure_ascii = false, exceptions enabled, the "C" numeric locale). *)
From Coq Require Import SpecFloat QArith Qcanon.
From Verif Require Import Prelude Bytes Float32 Json Grisu GrisuSpec.
Local Open Scope Z_scope.

(** What is not modelled here: the C library's strtod. [nearest sg q] is the double strtod returns for a
    decimal text of value q >= 0 preceded by "-" if sg. *)
Record numtext := NumText { nearest : bool -> Qc -> f64 }.

(** ** Serializer *)

(** Writing one more character into an array of [cap] characters; beyond its end is undefined. *)
Definition push (cap : Z) (buf : str) (c : ascii) : res str :=
  if len buf <? cap then Ok (buf ++ [c]) else UB UBIndex.
Fixpoint pushes (cap : Z) (buf cs : str) : res str :=
  match cs with
  | [] => Ok buf
  | c :: cs' => let* buf := push cap buf c in pushes cap buf cs'
  end.

(** decode, json.hpp:8785-8817: state and code point after one more byte. *)
Definition decode (state codep : Z) (c : ascii) : Z * Z :=
  let b := byte c in
  let codep' := if state =? 0 then Z.land (Z.shiftr 255 (utf8_type b)) b
                else Z.lor (Z.land b 63) (u32 (Z.shiftl codep 6)) in
  (utf8_step state c, codep').

(** printf("\\u%04x") for a 16 bit number. *)
Definition hex_char (n : Z) : ascii := to_char (if n <? 10 then 48 + n else 87 + n).
Definition u_escape (n : Z) : str :=
  lit "\u" ++ [hex_char (n / 4096 mod 16); hex_char (n / 256 mod 16); hex_char (n / 16 mod 16); hex_char (n mod 16)].

(** What is written for a completed code point whose last byte is c, json.hpp:8505-8578. *)
Definition escape (codep : Z) (c : ascii) : str :=
  if codep =? 8 then lit "\b"
  else if codep =? 9 then lit "\t"
  else if codep =? 10 then lit "\n"
  else if codep =? 12 then lit "\f"
  else if codep =? 13 then lit "\r"
  else if codep =? 34 then [to_char 92; to_char 34]
  else if codep =? 92 then lit "\\"
  else if codep <=? 31 then u_escape codep
  else [c].

(** dump_escaped, json.hpp:8493-8632. [out] is what reached the output, [buf] the used part of the
    512 character string_buffer. snprintf also writes a terminating zero: one more
    place must exist. *)
Fixpoint dump_escaped (out buf : str) (state codep : Z) (s : str) : res str :=
  match s with
  | [] => if state =? 0 then Ok (out ++ buf) else Throw EJsonType
  | c :: s' =>
      let '(state', codep') := decode state codep c in
      if state' =? 0 then
        let* buf' := pushes 512 buf (escape codep' c) in
        let* _ := (if codep' <=? 31 then push 512 buf' (to_char 0) else Ok buf') in
        if 512 - len buf' <? 13 then dump_escaped (out ++ buf') [] state' codep' s'
        else dump_escaped out buf' state' codep' s'
      else if state' =? 1 then Throw EJsonType
      else
        let* buf' := push 512 buf c in dump_escaped out buf' state' codep' s'
  end.

(** dump_integer, json.hpp:8643-8679. [room] is what is left of the 64 character number_buffer. *)
Fixpoint integer_digits (room : nat) (x : Z) (acc : str) : res str :=
  if x =? 0 then Ok acc
  else match room with
       | O => UB UBIndex
       | S room' => integer_digits room' (Z.quot x 10) (to_char (48 + Z.abs (Z.rem x 10)) :: acc)
       end.
Definition dump_integer (x : Z) : res str :=
  if x =? 0 then Ok (lit "0")
  else let* ds := integer_digits 63 x [] in
       Ok (if x <? 0 then to_char 45 :: ds else ds).

(** append_exponent, json.hpp:8045-8081. *)
Definition digit_char (d : Z) : ascii := to_char (48 + d).
Definition append_exponent (e : Z) : str :=
  let k := Z.abs e in
  (if e <? 0 then to_char 45 else to_char 43) ::
  (if k <? 10 then [digit_char 0; digit_char k]
   else if k <? 100 then [digit_char (k / 10); digit_char (k mod 10)]
   else [digit_char (k / 100); digit_char (k mod 100 / 10); digit_char (k mod 100 mod 10)]).
Definition zeros (n : Z) : str := repeat (digit_char 0) (Z.to_nat n).

(** format_buffer, json.hpp:8095-8163, with min_exp = -4 and max_exp = 15. *)
Definition format_buffer (ds : list Z) (decimal_exponent : Z) : str :=
  let k := len ds in
  let n := k + decimal_exponent in
  let buf := digit_char <$> ds in
  if (k <=? n) && (n <=? 15) then buf ++ zeros (n - k) ++ lit ".0"
  else if (0 <? n) && (n <=? 15) then take (Z.to_nat n) buf ++ lit "." ++ drop (Z.to_nat n) buf
  else if (-4 <? n) && (n <=? 0) then lit "0." ++ zeros (- n) ++ buf
  else if k =? 1 then buf ++ lit "e" ++ append_exponent (n - 1)
  else take 1 buf ++ lit "." ++ drop 1 buf ++ lit "e" ++ append_exponent (n - 1).

(** to_chars, json.hpp:8178-8221, and dump_float, json.hpp:8681-8708. The result is written to
    number_buffer (64 characters). *)
Definition f64_signbit (f : f64) : bool :=
  match f with S754_zero s | S754_infinity s | S754_finite s _ _ => s | S754_nan => false end.
Definition to_chars (f : f64) : res str :=
  let sign := if f64_signbit f then [to_char 45] else [] in
  match f with
  | S754_finite _ m e => let* (ds, x) := grisu2 (Z.pos m) e in Ok (sign ++ format_buffer ds x)
  | _ => Ok (sign ++ lit "0.0")
  end.
Definition dump_float (f : f64) : res str :=
  if f32_finite f then
    let* t := to_chars f in if len t <=? 64 then Ok t else UB UBIndex
  else Ok (lit "null").

(** dump, json.hpp:8286-8478; [step] = None is the compact form. indent_string (512 spaces, doubled
    when it is too short) is taken to be long enough. *)
Definition quote (s : str) : res str :=
  let* t := dump_escaped [] [] 0 0 s in Ok ([to_char 34] ++ t ++ [to_char 34]).
Definition newline (pretty : bool) (n : nat) : str := if pretty then to_char 10 :: repeat (to_char 32) n else [].
Fixpoint join_comma (l : list str) : str :=
  match l with
  | [] => []
  | [x] => x
  | x :: l' => x ++ lit "," ++ join_comma l'
  end.
Fixpoint dump_at (pretty : bool) (step cur : nat) (j : json) {struct j} : res str :=
  let new := (cur + step)%nat in
  match j with
  | JNull => Ok (lit "null")
  | JBool b => Ok (if b then lit "true" else lit "false")
  | JInt z => dump_integer z
  | JFloat f => dump_float f
  | JStr s => quote s
  | JArr [] => Ok (lit "[]")
  | JArr l =>
      let* ts := (fix go (l : list json) : res (list str) :=
                    match l with
                    | [] => Ok []
                    | x :: l' =>
                        let* t := dump_at pretty step new x in
                        let* ts := go l' in Ok ((newline pretty new ++ t) :: ts)
                    end) l in
      Ok (lit "[" ++ join_comma ts ++ newline pretty cur ++ lit "]")
  | JObj [] => Ok (lit "{}")
  | JObj l =>
      let* ts := (fix go (l : list (str * json)) : res (list str) :=
                    match l with
                    | [] => Ok []
                    | (k, x) :: l' =>
                        let* q := quote k in
                        let* t := dump_at pretty step new x in
                        let* ts := go l' in
                        Ok ((newline pretty new ++ q ++ (if pretty then lit ": " else lit ":") ++ t) :: ts)
                    end) l in
      Ok (lit "{" ++ join_comma ts ++ newline pretty cur ++ lit "}")
  end.
(** dump(), dump(2), json.hpp:11536-11552. *)
Definition json_dump (j : json) : res str := dump_at false 0 0 j.
Definition json_dump2 (j : json) : res str := dump_at true 2 0 j.

(** ** Lexer *)

Inductive token :=
| TBeginArray | TEndArray | TBeginObject | TEndObject | TColon | TComma
| TTrue | TFalse | TNull | TString (s : str) | TInt (z : Z) | TFloat (f : f64)
| TEnd | TError.

Definition in_range (lo hi : Z) (c : ascii) : bool := (lo <=? byte c) && (byte c <=? hi).
Definition is_digit (c : ascii) : bool := in_range 48 57 c.

(** get_codepoint, json.hpp:1959-1990. *)
Definition hex_value (c : ascii) : option Z :=
  let b := byte c in
  if (48 <=? b) && (b <=? 57) then Some (b - 48)
  else if (65 <=? b) && (b <=? 70) then Some (b - 55)
  else if (97 <=? b) && (b <=? 102) then Some (b - 87)
  else None.
Definition codepoint4 (h1 h2 h3 h4 : ascii) : option Z :=
  match hex_value h1, hex_value h2, hex_value h3, hex_value h4 with
  | Some a, Some b, Some c, Some d => Some (a * 4096 + b * 256 + c * 16 + d)
  | _, _, _, _ => None
  end.
(** Code point to UTF-8, json.hpp:2172-2197. *)
Definition utf8_bytes (cp : Z) : str :=
  if cp <? 128 then [to_char cp]
  else if cp <=? 2047 then [to_char (Z.lor 192 (Z.shiftr cp 6)); to_char (Z.lor 128 (Z.land cp 63))]
  else if cp <=? 65535 then
    [to_char (Z.lor 224 (Z.shiftr cp 12)); to_char (Z.lor 128 (Z.land (Z.shiftr cp 6) 63)); to_char (Z.lor 128 (Z.land cp 63))]
  else [to_char (Z.lor 240 (Z.shiftr cp 18)); to_char (Z.lor 128 (Z.land (Z.shiftr cp 12) 63));
        to_char (Z.lor 128 (Z.land (Z.shiftr cp 6) 63)); to_char (Z.lor 128 (Z.land cp 63))].

(** scan_string after the opening quote, json.hpp:2044-2474: the content and what follows the closing
    quote; None is token_type::parse_error. *)
Definition emit (l : str) (o : option (str * str)) : option (str * str) :=
  match o with Some (t, r) => Some (l ++ t, r) | None => None end.
Fixpoint scan_string (s : str) : option (str * str) :=
  match s with
  | [] => None
  | c :: s1 =>
      if byte c =? 34 then Some ([], s1)
      else if byte c =? 92 then
        match s1 with
        | [] => None
        | e :: s2 =>
            if byte e =? 34 then emit [e] (scan_string s2)
            else if byte e =? 92 then emit [e] (scan_string s2)
            else if byte e =? 47 then emit [e] (scan_string s2)
            else if byte e =? 98 then emit [to_char 8] (scan_string s2)
            else if byte e =? 102 then emit [to_char 12] (scan_string s2)
            else if byte e =? 110 then emit [to_char 10] (scan_string s2)
            else if byte e =? 114 then emit [to_char 13] (scan_string s2)
            else if byte e =? 116 then emit [to_char 9] (scan_string s2)
            else if byte e =? 117 then
              match s2 with
              | h1 :: h2 :: h3 :: h4 :: s3 =>
                  match codepoint4 h1 h2 h3 h4 with
                  | None => None
                  | Some cp =>
                      if (55296 <=? cp) && (cp <=? 56319) then
                        match s3 with
                        | b :: u :: g1 :: g2 :: g3 :: g4 :: s4 =>
                            if (byte b =? 92) && (byte u =? 117) then
                              match codepoint4 g1 g2 g3 g4 with
                              | Some cp2 =>
                                  if (56320 <=? cp2) && (cp2 <=? 57343)
                                  then emit (utf8_bytes (cp * 1024 + cp2 - 56613888)) (scan_string s4)
                                  else None
                              | None => None
                              end
                            else None
                        | _ => None
                        end
                      else if (56320 <=? cp) && (cp <=? 57343) then None
                      else emit (utf8_bytes cp) (scan_string s3)
                  end
              | _ => None
              end
            else None
        end
      else if byte c <? 32 then None
      else if byte c <? 128 then emit [c] (scan_string s1)
      else if in_range 194 223 c then
        match s1 with
        | c1 :: s2 => if in_range 128 191 c1 then emit [c; c1] (scan_string s2) else None
        | _ => None
        end
      else if in_range 224 239 c then
        match s1 with
        | c1 :: c2 :: s2 =>
            if (if byte c =? 224 then in_range 160 191 c1 else if byte c =? 237 then in_range 128 159 c1 else in_range 128 191 c1)
               && in_range 128 191 c2
            then emit [c; c1; c2] (scan_string s2) else None
        | _ => None
        end
      else if in_range 240 244 c then
        match s1 with
        | c1 :: c2 :: c3 :: s2 =>
            if (if byte c =? 240 then in_range 144 191 c1 else if byte c =? 244 then in_range 128 143 c1 else in_range 128 191 c1)
               && in_range 128 191 c2 && in_range 128 191 c3
            then emit [c; c1; c2; c3] (scan_string s2) else None
        | _ => None
        end
      else None
  end.

(** scan_number, json.hpp:2530-2861: the state machine of its labels. *)
Inductive nstate := NMinus | NZero | NAny1 | NDecimal1 | NDecimal2 | NExponent | NSign | NAny2.
Inductive naction := Goto (st : nstate) | NDone | NError.
Definition is_exp (c : ascii) : bool := (byte c =? 101) || (byte c =? 69).
Definition number_step (st : nstate) (c : ascii) : naction :=
  match st with
  | NMinus => if byte c =? 48 then Goto NZero else if is_digit c then Goto NAny1 else NError
  | NZero => if byte c =? 46 then Goto NDecimal1 else if is_exp c then Goto NExponent else NDone
  | NAny1 => if is_digit c then Goto NAny1 else if byte c =? 46 then Goto NDecimal1
             else if is_exp c then Goto NExponent else NDone
  | NDecimal1 => if is_digit c then Goto NDecimal2 else NError
  | NDecimal2 => if is_digit c then Goto NDecimal2 else if is_exp c then Goto NExponent else NDone
  | NExponent => if (byte c =? 43) || (byte c =? 45) then Goto NSign else if is_digit c then Goto NAny2 else NError
  | NSign => if is_digit c then Goto NAny2 else NError
  | NAny2 => if is_digit c then Goto NAny2 else NDone
  end.
(** At the end of the input the default case of each switch is taken. *)
Definition number_end (st : nstate) : bool :=
  match st with NZero | NAny1 | NDecimal2 | NAny2 => true | _ => false end.
Inductive ntype := NUnsigned | NInteger | NFloat.
Definition enter (st : nstate) (ty : ntype) : ntype :=
  match st with NMinus => NInteger | NDecimal1 | NExponent => NFloat | _ => ty end.
(** token_buffer after the characters read so far, the type, and the text that is left. *)
Fixpoint scan_digits (st : nstate) (ty : ntype) (s : str) : option (str * ntype * str) :=
  match s with
  | [] => if number_end st then Some ([], ty, []) else None
  | c :: s' =>
      match number_step st c with
      | Goto st' => match scan_digits st' (enter st' ty) s' with
                    | Some (b, ty', r) => Some (c :: b, ty', r)
                    | None => None end
      | NDone => Some ([], ty, s)
      | NError => None
      end
  end.

(** Value of a string of digits, as strtoull and strtoll read it. *)
Fixpoint digits_value (acc : Z) (s : str) : Z :=
  match s with [] => acc | c :: s' => digits_value (acc * 10 + (byte c - 48)) s' end.
Definition signed_value (s : str) : Z :=
  match s with c :: s' => if byte c =? 45 then - digits_value 0 s' else digits_value 0 s | [] => 0 end.
(** The decimal number strtod reads in a text of the form -?digits[.digits][e[+-]digits]. *)
Fixpoint span_digits (s : str) : str * str :=
  match s with
  | c :: s' => if is_digit c then let '(a, b) := span_digits s' in (c :: a, b) else ([], s)
  | [] => ([], [])
  end.
Definition exponent_value (s : str) : Z :=
  match s with
  | e :: c :: s' => if byte c =? 45 then - digits_value 0 s' else if byte c =? 43 then digits_value 0 s'
                    else digits_value 0 (c :: s')
  | _ => 0
  end.
Definition strtod (T : numtext) (s : str) : f64 :=
  let '(sg, s) := match s with c :: s' => if byte c =? 45 then (true, s') else (false, s) | [] => (false, s) end in
  let '(ip, s) := span_digits s in
  let '(fp, s) := match s with c :: s' => if byte c =? 46 then span_digits s' else ([], s) | [] => ([], s) end in
  nearest T sg (decimal (digits_value 0 (ip ++ fp)) (exponent_value s - len fp)).

Definition scan_number (T : numtext) (c : ascii) (s : str) : token * str :=
  let st := if byte c =? 45 then NMinus else if byte c =? 48 then NZero else NAny1 in
  match scan_digits st (enter st NUnsigned) s with
  | None => (TError, [])
  | Some (b, ty, r) =>
      let b := c :: b in
      (match ty with
       | NUnsigned => let x := digits_value 0 b in if x <? W64 then TInt x else TFloat (strtod T b)
       | NInteger => let x := signed_value b in if LL_MIN <=? x then TInt x else TFloat (strtod T b)
       | NFloat => TFloat (strtod T b)
       end, r)
  end.

(** scan_literal, json.hpp:2867-2880, after the first character. *)
Fixpoint scan_literal (w s : str) (t : token) : token * str :=
  match w with
  | [] => (t, s)
  | c :: w' => match s with
               | c' :: s' => if decide (c' = c) then scan_literal w' s' t else (TError, [])
               | [] => (TError, [])
               end
  end.

Definition is_space (c : ascii) : bool := (byte c =? 32) || (byte c =? 9) || (byte c =? 10) || (byte c =? 13).
Fixpoint skip_space (s : str) : str :=
  match s with c :: s' => if is_space c then skip_space s' else s | [] => [] end.

(** scan, json.hpp:3004-3066: the next token and the text after it. *)
Definition scan (T : numtext) (s : str) : token * str :=
  match skip_space s with
  | [] => (TEnd, [])
  | c :: s' =>
      let b := byte c in
      if b =? 91 then (TBeginArray, s')
      else if b =? 93 then (TEndArray, s')
      else if b =? 123 then (TBeginObject, s')
      else if b =? 125 then (TEndObject, s')
      else if b =? 58 then (TColon, s')
      else if b =? 44 then (TComma, s')
      else if b =? 116 then scan_literal (lit "rue") s' TTrue
      else if b =? 102 then scan_literal (lit "alse") s' TFalse
      else if b =? 110 then scan_literal (lit "ull") s' TNull
      else if b =? 34 then match scan_string s' with Some (t, r) => (TString t, r) | None => (TError, []) end
      else if (b =? 45) || is_digit c then scan_number T c s'
      else if b =? 0 then (TEnd, s')
      else (TError, [])
  end.

(** ** Parser *)

(** result.m_value.object->emplace(key, value): an existing member stays. *)
Definition jemplace (k : str) (v : json) (l : list (str * json)) : list (str * json) :=
  match assoc k l with Some _ => l | None => jinsert k v l end.

(** parse_internal, json.hpp:3236-3508, given the last token and the text after it. [fuel] bounds the number
    of nested and repeated steps; running out is [Hang] (TextTotal.v: it never does in json_parse).
    The C++ recursion depth (stack size) is not modelled. *)
Fixpoint parse_value (T : numtext) (fuel : nat) (t : token) (s : str) {struct fuel} : res (json * str) :=
  match fuel with
  | O => Hang
  | S fuel =>
      match t with
      | TBeginObject =>
          let '(t, s) := scan T s in
          match t with
          | TEndObject => Ok (JObj [], s)
          | _ => parse_members T fuel [] t s
          end
      | TBeginArray =>
          let '(t, s) := scan T s in
          match t with
          | TEndArray => Ok (JArr [], s)
          | _ => parse_elements T fuel [] t s
          end
      | TNull => Ok (JNull, s)
      | TTrue => Ok (JBool true, s)
      | TFalse => Ok (JBool false, s)
      | TString x => Ok (JStr x, s)
      | TInt z => Ok (JInt z, s)
      | TFloat f => if f32_finite f then Ok (JFloat f, s) else Throw EJsonRange
      | _ => Throw EJsonParse
      end
  end
with parse_members (T : numtext) (fuel : nat) (acc : list (str * json)) (t : token) (s : str) {struct fuel} : res (json * str) :=
  match fuel with
  | O => Hang
  | S fuel =>
      match t with
      | TString k =>
          let '(t, s) := scan T s in
          match t with
          | TColon =>
              let '(t, s) := scan T s in
              let* (v, s) := parse_value T fuel t s in
              let acc := jemplace k v acc in
              let '(t, s) := scan T s in
              match t with
              | TComma => let '(t, s) := scan T s in parse_members T fuel acc t s
              | TEndObject => Ok (JObj acc, s)
              | _ => Throw EJsonParse
              end
          | _ => Throw EJsonParse
          end
      | _ => Throw EJsonParse
      end
  end
with parse_elements (T : numtext) (fuel : nat) (acc : list json) (t : token) (s : str) {struct fuel} : res (json * str) :=
  match fuel with
  | O => Hang
  | S fuel =>
      let* (v, s) := parse_value T fuel t s in
      let acc := acc ++ [v] in
      let '(t, s) := scan T s in
      match t with
      | TComma => let '(t, s) := scan T s in parse_elements T fuel acc t s
      | TEndArray => Ok (JArr acc, s)
      | _ => Throw EJsonParse
      end
  end.

(** input_buffer_adapter, json.hpp:1679-1687: a byte order mark is skipped. *)
Definition skip_bom (s : str) : str :=
  match s with
  | a :: b :: c :: s' => if (byte a =? 239) && (byte b =? 187) && (byte c =? 191) then s' else s
  | _ => s
  end.
(** json::parse(text), json.hpp:3179-3206 (strict). *)
Definition json_parse (T : numtext) (text : str) : res json :=
  let s := skip_bom text in
  let '(t, s) := scan T s in
  let* (j, s) := parse_value T (2 * length text + 2) t s in
  let '(t, _) := scan T s in
  match t with TEnd => Ok j | _ => Throw EJsonParse end.
