(** * Model of FITS cards.

    include/boost/astronomy/io/card.hpp
    include/boost/astronomy/io/default_card_policy.hpp
    include/boost/astronomy/io/string_conversion_utility.hpp *)
From Verif Require Export CppModel.

(** ** Value types *)

(** default_card_policy.hpp:31-45, [supported_types] without boost::blank. *)
Inductive cty : Type :=
| TBool | TInt | TFloat | TDouble | TUInt | TLongLong | TSize | TStr
| TCInt | TCDouble | TCFloat | TCSize.

(** A value of one of the supported types. Floating point numbers are bit patterns. *)
Inductive cval : Type :=
| VBool (b : bool)
| VInt (z : Z)
| VFloat (w : N)
| VDouble (w : N)
| VUInt (n : N)
| VLongLong (z : Z)
| VSize (n : N)
| VStr (s : str)
| VCInt (re im : Z)
| VCDouble (re im : N)
| VCFloat (re im : N)
| VCSize (re im : N).

Definition ty_of (v : cval) : cty :=
  match v with
  | VBool _ => TBool | VInt _ => TInt | VFloat _ => TFloat | VDouble _ => TDouble
  | VUInt _ => TUInt | VLongLong _ => TLongLong | VSize _ => TSize | VStr _ => TStr
  | VCInt _ _ => TCInt | VCDouble _ _ => TCDouble | VCFloat _ _ => TCFloat
  | VCSize _ _ => TCSize
  end.

Definition cty_eqb (a b : cty) : bool :=
  match a, b with
  | TBool, TBool | TInt, TInt | TFloat, TFloat | TDouble, TDouble | TUInt, TUInt
  | TLongLong, TLongLong | TSize, TSize | TStr, TStr | TCInt, TCInt
  | TCDouble, TCDouble | TCFloat, TCFloat | TCSize, TCSize => true
  | _, _ => false
  end.

(** The text codec of float and double: [*_show] is [ostream <<] with default
    precision, [*_read] is boost::lexical_cast (None: bad_lexical_cast). It is an argument of the
    model: nothing is assumed about it. *)
Record fcodec : Type := {
  f32_show : N -> str;
  f32_read : str -> option N;
  f64_show : N -> str;
  f64_read : str -> option N
}.

(** ** default_card_policy.hpp *)

(** default_card_policy.hpp:51-55. *)
Definition reserved_keywords : list str := [lit "COMMENT"; lit "HISTORY"; lit "END"].

(** default_card_policy.hpp:62-64. *)
Definition is_key_valid (key : str) : bool := length key <=? 8.

(** default_card_policy.hpp:225-227. *)
Definition is_reserved_keyword (key : str) : bool := existsb (str_eqb key) reserved_keywords.

(** default_card_policy.hpp:232-234. *)
Definition in_proper_format (c : str) : outcome bool :=
  let! f := substr c 8 2 in Ret (str_eqb f (lit "= ")).

(** default_card_policy.hpp:239-241. *)
Definition is_blank (c : str) : outcome bool :=
  let! f := substr c 0 8 in Ret (str_eqb f (spaces 8)).

(** default_card_policy.hpp:70-78: the validity test of a whole record. The operands of
    || are evaluated left to right with short-circuit. *)
Definition is_card_valid1 (c : str) : outcome bool :=
  if length c <=? 80 then
    let! p := in_proper_format c in
    if p then Ret true
    else
      let! k := substr c 0 7 in
      if is_reserved_keyword (trim k) then Ret true
      else is_blank c
  else Ret false.

(** default_card_policy.hpp:83-90: the validity test of key, value, comment. *)
Definition is_card_valid3 (key value comment : str) : bool :=
  if is_key_valid key then
    match comment with
    | [] => length value <=? 70
    | _ => length value + length comment <=? 68
    end
  else false.

(** string_conversion_utility.hpp:34-42 (bad_lexical_cast becomes invalid_cast). *)
Definition cast_or_throw {A : Type} (o : option A) : outcome A :=
  match o with Some a => Ret a | None => Throw InvalidCast end.

(** default_card_policy.hpp:127-138: the text before and after the first blank. *)
Definition split_complex (s : str) : outcome (str * str) :=
  match find_idx sp s with
  | Some i => Ret (firstn i s, skipn (S i) s)
  | None => Throw InvalidCast
  end.

(** default_card_policy.hpp:96-138, parse_to<T>. The real part is parsed before the
    imaginary part (argument evaluation order is unspecified in C++; both failures throw the
    same exception). *)
Definition parse_to (fc : fcodec) (t : cty) (s : str) : outcome cval :=
  match t with
  | TBool => if str_eqb s (lit "T") then Ret (VBool true)
             else if str_eqb s (lit "F") then Ret (VBool false)
             else Throw InvalidCast
  | TInt => let! z := cast_or_throw (cast_signed 32 s) in Ret (VInt z)
  | TFloat => let! w := cast_or_throw (f32_read fc s) in Ret (VFloat w)
  | TDouble => let! w := cast_or_throw (f64_read fc s) in Ret (VDouble w)
  | TUInt => let! n := cast_or_throw (cast_unsigned 32 s) in Ret (VUInt n)
  | TLongLong => let! z := cast_or_throw (cast_signed 64 s) in Ret (VLongLong z)
  | TSize => let! n := cast_or_throw (cast_unsigned 64 s) in Ret (VSize n)
  | TStr => Ret (VStr s)
  | TCInt =>
      let! p := split_complex s in
      let! re := cast_or_throw (cast_signed 32 (fst p)) in
      let! im := cast_or_throw (cast_signed 32 (snd p)) in
      Ret (VCInt re im)
  | TCDouble =>
      let! p := split_complex s in
      let! re := cast_or_throw (f64_read fc (fst p)) in
      let! im := cast_or_throw (f64_read fc (snd p)) in
      Ret (VCDouble re im)
  | TCFloat =>
      let! p := split_complex s in
      let! re := cast_or_throw (f32_read fc (fst p)) in
      let! im := cast_or_throw (f32_read fc (snd p)) in
      Ret (VCFloat re im)
  | TCSize =>
      let! p := split_complex s in
      let! re := cast_or_throw (cast_unsigned 64 (fst p)) in
      let! im := cast_or_throw (cast_unsigned 64 (snd p)) in
      Ret (VCSize re im)
  end.

(** default_card_policy.hpp:152 and 183: val.insert(0, 20 - val.length(), ' '). *)
Definition pad20 (s : str) : outcome str :=
  prepend_spaces (sub64 20 (N.of_nat (length s))) s.

(** default_card_policy.hpp:144-194, serialize_to_fits_format. *)
Definition serialize (fc : fcodec) (v : cval) : outcome str :=
  match v with
  | VBool b => Ret (spaces 19 ++ (if b then lit "T" else lit "F"))
  | VInt z => pad20 (show_Z z)
  | VFloat w => pad20 (f32_show fc w)
  | VDouble w => pad20 (f64_show fc w)
  | VUInt n => pad20 (show_N n)
  | VLongLong z => pad20 (show_Z z)
  | VSize n => pad20 (show_N n)
  | VStr s => Ret ("'"%char :: s ++ ["'"%char])
  | VCInt re im =>
      let! a := pad20 (show_Z re) in let! b := pad20 (show_Z im) in Ret (a ++ b)
  | VCDouble re im =>
      let! a := pad20 (f64_show fc re) in let! b := pad20 (f64_show fc im) in Ret (a ++ b)
  | VCFloat re im =>
      let! a := pad20 (f32_show fc re) in let! b := pad20 (f32_show fc im) in Ret (a ++ b)
  | VCSize re im =>
      let! a := pad20 (show_N re) in let! b := pad20 (show_N im) in Ret (a ++ b)
  end.

(** default_card_policy.hpp:144-154 instantiated at T = char const*: what
    create_card(key, "literal") selects (the template is an exact match, the std::string
    overload needs a conversion). *)
Definition serialize_cstr (s : str) : outcome str := pad20 s.

(** default_card_policy.hpp:200-202 (substr at position 0 never throws). *)
Definition extract_keyword (c : str) : str := firstn 8 c.

(** default_card_policy.hpp:208-210. *)
Definition format_keyword (key : str) : outcome str :=
  append_spaces key (sub64 8 (N.of_nat (length key))).

(** default_card_policy.hpp:216-218; the count find('/') - 10 wraps modulo 2^64. *)
Definition extract_value (c : str) : outcome str :=
  substr c 9 (sub64 (str_find "/"%char c) 10).

(** ** card.hpp *)

(** card.hpp:34-40: the record text and the cached value (boost::blank is None). *)
Record card : Type := mk_card { raw : str; cache : option cval }.

(** card.hpp:47-50. *)
Definition empty_card : card := mk_card [] None.

(** card.hpp:60-68. *)
Definition card_of_string (s : str) : outcome card :=
  let! ok := is_card_valid1 s in
  if ok then Ret (mk_card s None) else Throw InvalidCard.

(** card.hpp:90-92. *)
Definition card_eqb (a b : card) : bool := str_eqb (raw a) (raw b).

(** card.hpp:202-218. The cache is not touched. *)
Definition create_card_impl (c : card) (key value comment : str) : card * outcome unit :=
  if is_card_valid3 key value comment then
    match format_keyword key with
    | Ret k =>
        let body := match comment with
                    | [] => k ++ lit "= " ++ value
                    | _ => k ++ lit "= " ++ value ++ lit " /" ++ comment
                    end in
        match append_spaces body (sub64 80 (N.of_nat (length body))) with
        | Ret r => (mk_card r (cache c), Ret tt)
        | Throw e => (mk_card body (cache c), Throw e)
        | Undef => (mk_card body (cache c), Undef)
        | NoFuel => (mk_card body (cache c), NoFuel)
        end
    | Throw e => (c, Throw e)
    | Undef => (c, Undef)
    | NoFuel => (c, NoFuel)
    end
  else (c, Throw InvalidCard).

(** card.hpp:101-106. *)
Definition create_card (fc : fcodec) (c : card) (key : str) (v : cval) (comment : str)
  : card * outcome unit :=
  match serialize fc v with
  | Ret s => create_card_impl c key s comment
  | Throw e => (c, Throw e)
  | Undef => (c, Undef)
  | NoFuel => (c, NoFuel)
  end.

(** card.hpp:101-106 called with a string literal as value. *)
Definition create_card_cstr (c : card) (key value comment : str) : card * outcome unit :=
  match serialize_cstr value with
  | Ret s => create_card_impl c key s comment
  | Throw e => (c, Throw e)
  | Undef => (c, Undef)
  | NoFuel => (c, NoFuel)
  end.

(** card.hpp:119-129. The record is overwritten before append can throw. *)
Definition create_commentary_card (c : card) (key value : str) : card * outcome unit :=
  if is_key_valid key then
    let content := key ++ lit "  " ++ value in
    match append_spaces content (sub64 80 (N.of_nat (length content))) with
    | Ret r => (mk_card r (cache c), Ret tt)
    | Throw e => (mk_card content (cache c), Throw e)
    | Undef => (mk_card content (cache c), Undef)
    | NoFuel => (mk_card content (cache c), NoFuel)
    end
  else (c, Throw InvalidCard).

(** card.hpp:136-144. *)
Definition keyword_whole (c : card) : str := extract_keyword (raw c).
Definition keyword (c : card) : str := trim (extract_keyword (raw c)).

(** card.hpp:236-244. On the empty text operator[](0) yields '\0'. For the text
    consisting of one quote the iterator range is reversed: undefined behaviour. *)
Definition value_imp_str (c : card) : outcome cval :=
  let! e := extract_value (raw c) in
  let val := trim e in
  match val with
  | [] => Ret (VStr [])
  | x :: r =>
      if Ascii.eqb x "'"%char then
        match r with
        | [] => Undef
        | _ => Ret (VStr (trim (removelast r)))
        end
      else Ret (VStr val)
  end.

(** card.hpp:225-230 and 236-244. *)
Definition value_imp (fc : fcodec) (t : cty) (c : card) : outcome cval :=
  match t with
  | TStr => value_imp_str c
  | _ => let! e := extract_value (raw c) in parse_to fc t (trim e)
  end.

(** boost::get<T>(variant): bad_get unless the alternative is T. *)
Definition get_as (t : cty) (v : cval) : outcome cval :=
  if cty_eqb (ty_of v) t then Ret v else Throw BadGet.

(** card.hpp:151-158: reads (and fills) the cache. *)
Definition value (fc : fcodec) (t : cty) (c : card) : card * outcome cval :=
  match cache c with
  | Some v => (c, get_as t v)
  | None =>
      match value_imp fc t c with
      | Ret v => (mk_card (raw c) (Some v), get_as t v)
      | Throw e => (c, Throw e)
      | Undef => (c, Undef)
      | NoFuel => (c, NoFuel)
      end
  end.

(** card.hpp:164-167. *)
Definition value_with_comment (c : card) : outcome str :=
  let! r := substr (raw c) 10 npos in Ret (trim r).

(** card.hpp:173-185. *)
Definition set_value (fc : fcodec) (v : cval) (c : card) : card * outcome unit :=
  match serialize fc v with
  | Ret s =>
      if is_card_valid3 (keyword c) s [] then
        (mk_card (keyword_whole c ++ s) (Some v), Ret tt)
      else (c, Ret tt)
  | Throw e => (c, Throw e)
  | Undef => (c, Undef)
  | NoFuel => (c, NoFuel)
  end.

(** card.hpp:190. *)
Definition raw_card (c : card) : str := raw c.

(** card.hpp:196. *)
Definition value_cached (c : card) : bool :=
  match cache c with Some _ => true | None => false end.
