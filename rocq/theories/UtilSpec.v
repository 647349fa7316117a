(* Specification vocabulary for the utilities (C44 - C51, C54, C55): what the
   texts mean, written as grammars that relate a text to the data it stands
   for.  Nothing here refers to the model except for the result types. *)

From Coq Require Import NArith List Bool Arith String.
From Verif Require Import Bytes UtilModel.
Import ListNotations.
Local Open Scope N_scope.
Local Open Scope list_scope.

(* ---------------------------------------------------------------- bytes *)

(* all elements are bytes *)
Definition octets (l : list byte) : Prop := Forall (fun b => b < 256) l.

(* printable ASCII other than the space *)
Definition visible (b : byte) : Prop := 33 <= b <= 126.

(* b is the hexadecimal digit of value v, in either case *)
Definition HexDigit (b : byte) (v : N) : Prop :=
  nth_error (bs "0123456789abcdef") (N.to_nat v) = Some b \/
  nth_error (bs "0123456789ABCDEF") (N.to_nat v) = Some b.

Definition not_hex (b : byte) : Prop := forall v, ~ HexDigit b v.

(* space and tab *)
Definition ws (b : byte) : Prop := b = 32 \/ b = 9.

Definition upper (b : byte) : Prop := 65 <= b <= 90.

(* token characters of RFC 7230, 3.2.6 *)
Definition token (b : byte) : Prop :=
  65 <= b <= 90 \/ 97 <= b <= 122 \/ 48 <= b <= 57 \/ In b (bs "!#$%&'*+-.^_`|~").

(* bytes of an unquoted field value: tab, space, visible ASCII except the
   double quote (34), and 128 to 254 *)
Definition value_byte (b : byte) : Prop :=
  b = 9 \/ (32 <= b <= 126 /\ b <> 34) \/ 128 <= b <= 254.

(* ------------------------------------------------------ percent encoding *)

(* Encodes text data: text is one of the encodings of data *)
Inductive Encodes : list byte -> list byte -> Prop :=
| enc_nil : Encodes [] []
| enc_plain b t d :
    visible b -> b <> 43 -> b <> 37 -> Encodes t d -> Encodes (b :: t) (b :: d)
| enc_plus t d : Encodes t d -> Encodes (43 :: t) (32 :: d)
| enc_hex h l vh vl t d :
    HexDigit h vh -> HexDigit l vl -> Encodes t d ->
    Encodes (37 :: h :: l :: t) (16 * vh + vl :: d).

(* EscapeProblem text b: text begins with a '%' that is not followed by two
   hexadecimal digits; b is the byte at which the sequence breaks off: the
   last byte when fewer than two bytes follow, else the first non-digit *)
Inductive EscapeProblem : list byte -> byte -> list byte -> Prop :=
| ep_end : EscapeProblem [37] 37 []
| ep_one x : EscapeProblem [37; x] x []
| ep_hi x y t : not_hex x -> EscapeProblem (37 :: x :: y :: t) x (y :: t)
| ep_lo x y t v : HexDigit x v -> not_hex y -> EscapeProblem (37 :: x :: y :: t) y t.

(* the first problem of a text whose remainder begins with it *)
Inductive DecodeProblem : list byte -> decode_error -> Prop :=
| dp_byte b t : ~ visible b -> DecodeProblem (b :: t) (DByte b)
| dp_hex r x rest : EscapeProblem r x rest -> DecodeProblem r (DHexSequence x).

(* a byte that may not occur, or an incomplete escape *)
Definition malformed (r : list byte) : Prop :=
  match r with
  | [] => False
  | b :: t =>
      ~ visible b \/
      (b = 37 /\ ~ exists h l vh vl t', t = h :: l :: t' /\ HexDigit h vh /\ HexDigit l vl)
  end.

(* percent-encoding of every byte, with upper-case or lower-case digits as
   chosen by f *)
Definition digit (up : bool) (v : N) : byte :=
  nth (N.to_nat v) (bs (if up then "0123456789ABCDEF" else "0123456789abcdef")) 0.

Fixpoint percent_encode (f : nat -> bool) (d : list byte) : list byte :=
  match d with
  | [] => []
  | b :: d' => 37 :: digit (f (2 * List.length d')%nat) (b / 16)
                  :: digit (f (S (2 * List.length d'))%nat) (b mod 16) :: percent_encode f d'
  end.

(* --------------------------------------------------------------- UTF-8 *)

(* well-formed UTF-8 byte sequences, Unicode standard table 3-7 *)
Definition cont (b : byte) : Prop := 128 <= b <= 191.

Inductive Utf8 : list byte -> Prop :=
| u_nil : Utf8 []
| u_1 a t : a <= 127 -> Utf8 t -> Utf8 (a :: t)
| u_2 a b t : 194 <= a <= 223 -> cont b -> Utf8 t -> Utf8 (a :: b :: t)
| u_3a b c t : 160 <= b <= 191 -> cont c -> Utf8 t -> Utf8 (224 :: b :: c :: t)
| u_3b a b c t : 225 <= a <= 236 \/ 238 <= a <= 239 ->
    cont b -> cont c -> Utf8 t -> Utf8 (a :: b :: c :: t)
| u_3c b c t : 128 <= b <= 159 -> cont c -> Utf8 t -> Utf8 (237 :: b :: c :: t)
| u_4a b c d t : 144 <= b <= 191 -> cont c -> cont d -> Utf8 t -> Utf8 (240 :: b :: c :: d :: t)
| u_4b a b c d t : 241 <= a <= 243 -> cont b -> cont c -> cont d -> Utf8 t ->
    Utf8 (a :: b :: c :: d :: t)
| u_4c b c d t : 128 <= b <= 143 -> cont c -> cont d -> Utf8 t -> Utf8 (244 :: b :: c :: d :: t).

(* --------------------------------------------------------------- queries *)

Definition separator (b : byte) : Prop := b = 38 \/ b = 59.   (* & and ; *)

(* text of a parameter name; escapes are not possible *)
Inductive QName : list byte -> list byte -> Prop :=
| qn_nil : QName [] []
| qn_plain b t n :
    visible b -> ~ In b (bs "%+=&;") -> QName t n -> QName (b :: t) (b :: n)
| qn_plus t n : QName t n -> QName (43 :: t) (32 :: n).

(* text of a parameter value *)
Inductive QValue : list byte -> list byte -> Prop :=
| qv_nil : QValue [] []
| qv_plain b t v :
    visible b -> ~ In b (bs "%+&;") -> QValue t v -> QValue (b :: t) (b :: v)
| qv_plus t v : QValue t v -> QValue (43 :: t) (32 :: v)
| qv_hex h l vh vl t v :
    HexDigit h vh -> HexDigit l vl -> QValue t v ->
    QValue (37 :: h :: l :: t) (16 * vh + vl :: v).

(* QueryStep first text result errors rest: what a next() call does whose
   remaining input is text; first says that text is the whole query *)
Inductive QueryStep (first : bool)
  : list byte -> next_result -> list iter_error -> list byte -> Prop :=
| qs_end : QueryStep first [] NNone [] []
| qs_name_end t n : QName t n -> t <> [] -> QueryStep first t (NItem n None) [] []
| qs_name_sep t n s r : QName t n -> separator s -> (first = true -> t <> []) ->
    QueryStep first (t ++ s :: r) (NItem n None) [] r
| qs_value_end t n u v : QName t n -> QValue u v -> (first = true -> t <> []) ->
    QueryStep first (t ++ 61 :: u) (NItem n (Some v)) [] []
| qs_value_sep t n u v s r : QName t n -> QValue u v -> separator s -> (first = true -> t <> []) ->
    QueryStep first (t ++ 61 :: u ++ s :: r) (NItem n (Some v)) [] r
(* the query begins with '=', '&' or ';' *)
| qs_bad_start b r : first = true -> b = 61 \/ separator b ->
    QueryStep first (b :: r) NNone [EName b] []
(* an invalid byte in a name or in a value *)
| qs_name_byte t n b r : QName t n -> ~ visible b ->
    QueryStep first (t ++ b :: r) NNone [EName b] []
| qs_value_byte t n u v b r : QName t n -> QValue u v -> ~ visible b ->
    (first = true -> t <> []) ->
    QueryStep first (t ++ 61 :: u ++ b :: r) NNone [EValue b] []
(* a broken escape *)
| qs_name_escape t n r x r' : QName t n -> EscapeProblem r x r' ->
    QueryStep first (t ++ r) NNone [EName x] r'
| qs_value_escape t n u v r x r' : QName t n -> QValue u v -> EscapeProblem r x r' ->
    (first = true -> t <> []) ->
    QueryStep first (t ++ 61 :: u ++ r) NNone [EValue x] r'
(* even a correct escape in a name is refused *)
| qs_name_hex t n h l vh vl r : QName t n -> HexDigit h vh -> HexDigit l vl ->
    QueryStep first (t ++ 37 :: h :: l :: r) NNone [EName l] [].

(* ---------------------------------------------------------------- fields *)

(* FName norm d text name skip: text is a prefix of a field up to some point in
   its name; name is what it contributes; skip says that white space at this
   point is skipped (at the beginning, after a '/', and when normalising after
   an upper-case letter) *)
Inductive FName (norm : bool) (d : byte) : list byte -> list byte -> bool -> Prop :=
| fn_start : FName norm d [] [] true
| fn_ws t n b : FName norm d t n true -> ws b -> FName norm d (t ++ [b]) n true
| fn_token t n s b :
    FName norm d t n s -> token b -> b <> d -> ~ (norm = true /\ upper b) ->
    FName norm d (t ++ [b]) (n ++ [b]) false
| fn_slash t n s : FName norm d t n s -> FName norm d (t ++ [47]) (n ++ [47]) true
| fn_upper t n s b :
    FName norm d t n s -> norm = true -> upper b -> b <> d ->
    FName norm d (t ++ [b]) (n ++ [b + 32]) true.

(* content of a quoted value: a backslash makes the next byte literal *)
Inductive FQuoted : list byte -> list byte -> Prop :=
| fq_nil : FQuoted [] []
| fq_plain b t v : value_byte b -> b <> 92 -> FQuoted t v -> FQuoted (b :: t) (b :: v)
| fq_escape x t v : FQuoted t v -> FQuoted (92 :: x :: t) (x :: v).

(* unquoted value *)
Definition FPlain (d : byte) (v : list byte) : Prop :=
  Forall (fun b => value_byte b /\ b <> d) v.

(* a value that is not empty begins neither with white space nor with a quote *)
Definition starts_plain (v : list byte) : Prop :=
  match v with [] => True | b :: _ => ~ ws b /\ b <> 34 end.

(* A delimiter that is neither a byte with a meaning of its own ('=', '/', the
   double quote, white space) nor 255. *)
Definition delimiter (d : byte) : Prop :=
  d < 255 /\ ~ ws d /\ d <> 61 /\ d <> 47 /\ d <> 34.

(* The delimiter ends a name, unless it is '=' or '/', which keep their meaning, or
   white space where that is skipped; 255 is in no table. *)
Definition ends_name (d : byte) (skip : bool) : Prop :=
  d < 255 /\ d <> 61 /\ d <> 47 /\ ~ (skip = true /\ ws d).

(* The delimiter ends a value; before the first byte of a value white space is
   skipped, and a quote opens a quoted value. *)
Definition ends_value (d : byte) (v : list byte) : Prop :=
  d < 255 /\ (v = [] -> ~ ws d /\ d <> 34).

(* FieldStep text result errors rest: what a next() call does whose remaining
   input is text *)
Inductive FieldStep (norm : bool) (d : byte)
  : list byte -> next_result -> list iter_error -> list byte -> Prop :=
(* the end of the text directly after the beginning, a '/' or (when
   normalising) an upper-case letter, apart from white space: no item *)
| fs_none t n : FName norm d t n true -> FieldStep norm d t NNone [] []
| fs_name_end t n : FName norm d t n false -> FieldStep norm d t (NItem n None) [] []
| fs_name_delim t n s r : FName norm d t n s -> ends_name d s ->
    FieldStep norm d (t ++ d :: r) (NItem n None) [] r
| fs_name_bad t n s b r : FName norm d t n s -> b < 255 ->
    ~ token b -> b <> d -> b <> 61 -> b <> 47 -> ~ (s = true /\ ws b) ->
    FieldStep norm d (t ++ b :: r) NNone [EName b] []
(* "name=" at the end of the text *)
| fs_no_value t n s w : FName norm d t n s -> Forall ws w ->
    FieldStep norm d (t ++ 61 :: w) (NItem n None) [] []
| fs_value_end t n s w v : FName norm d t n s -> Forall ws w ->
    FPlain d v -> starts_plain v -> v <> [] ->
    FieldStep norm d (t ++ 61 :: w ++ v) (NItem n (Some v)) [] []
| fs_value_delim t n s w v r : FName norm d t n s -> Forall ws w ->
    FPlain d v -> starts_plain v -> ends_value d v ->
    FieldStep norm d (t ++ 61 :: w ++ v ++ d :: r) (NItem n (Some v)) [] r
| fs_value_bad t n s w v b r : FName norm d t n s -> Forall ws w ->
    FPlain d v -> starts_plain v -> (v = [] -> b <> 34) ->
    b < 255 -> ~ value_byte b -> b <> d ->
    FieldStep norm d (t ++ 61 :: w ++ v ++ b :: r) NNone [EValue b] []
(* quoted values *)
| fs_quoted_end t n s w q v w' : FName norm d t n s -> Forall ws w -> FQuoted q v -> Forall ws w' ->
    FieldStep norm d (t ++ 61 :: w ++ 34 :: q ++ 34 :: w') (NItem n (Some v)) [] []
(* one more byte, whatever it is, is swallowed *)
| fs_quoted_any t n s w q v w' b : FName norm d t n s -> Forall ws w -> FQuoted q v -> Forall ws w' ->
    ~ ws b ->
    FieldStep norm d (t ++ 61 :: w ++ 34 :: q ++ 34 :: w' ++ [b]) (NItem n (Some v)) [] []
(* the byte after that one must be the delimiter *)
| fs_quoted_delim t n s w q v w' b r : FName norm d t n s -> Forall ws w -> FQuoted q v ->
    Forall ws w' -> ~ ws b ->
    FieldStep norm d (t ++ 61 :: w ++ 34 :: q ++ 34 :: w' ++ b :: d :: r) (NItem n (Some v)) [] r
| fs_quoted_bad t n s w q v w' b b' r : FName norm d t n s -> Forall ws w -> FQuoted q v ->
    Forall ws w' -> ~ ws b -> b' <> d ->
    FieldStep norm d (t ++ 61 :: w ++ 34 :: q ++ 34 :: w' ++ b :: b' :: r) NNone [EValue b'] []
(* no closing quote: the last byte of the text is reported *)
| fs_quoted_open t n s w q v : FName norm d t n s -> Forall ws w -> FQuoted q v ->
    FieldStep norm d (t ++ 61 :: w ++ 34 :: q) NNone [EValue (last q 34)] []
| fs_quoted_slash t n s w q v : FName norm d t n s -> Forall ws w -> FQuoted q v ->
    FieldStep norm d (t ++ 61 :: w ++ 34 :: q ++ [92]) NNone [EName 92] []
| fs_quoted_byte t n s w q v b r : FName norm d t n s -> Forall ws w -> FQuoted q v ->
    b < 255 -> ~ value_byte b -> b <> 34 ->
    FieldStep norm d (t ++ 61 :: w ++ 34 :: q ++ b :: r) NNone [EValue b] []
(* the byte 255 makes the table lookup panic *)
| fs_panic_name t n s r rest : FName norm d t n s ->
    FieldStep norm d (t ++ 255 :: r) NPanic [] rest
| fs_panic_value t n s w v r rest : FName norm d t n s -> Forall ws w -> FPlain d v -> starts_plain v ->
    FieldStep norm d (t ++ 61 :: w ++ v ++ 255 :: r) NPanic [] rest
| fs_panic_quoted t n s w q v r rest : FName norm d t n s -> Forall ws w -> FQuoted q v ->
    FieldStep norm d (t ++ 61 :: w ++ 34 :: q ++ 255 :: r) NPanic [] rest.

(* ------------------------------------------------------------- iteration *)

Definition item : Type := list byte * option (list byte).

(* Runs step first text items errors result: a for loop over the iterator
   yields items and ends with result (NNone, or NPanic) *)
Inductive Runs (step : bool -> list byte -> next_result -> list iter_error -> list byte -> Prop)
  : bool -> list byte -> list item -> list iter_error -> next_result -> Prop :=
| runs_stop first t r e rest : step first t r e rest -> r = NNone \/ r = NPanic ->
    Runs step first t [] e r
| runs_item first t n v e rest items e' r : step first t (NItem n v) e rest ->
    Runs step false rest items e' r -> Runs step first t ((n, v) :: items) (e ++ e') r.

(* ---------------------------------------------------- clean renderings *)

(* one parameter: "name" or "name=value" *)
Inductive QField : list byte -> item -> Prop :=
| qf_name t n : QName t n -> QField t (n, None)
| qf_pair t n u v : QName t n -> QValue u v -> QField (t ++ 61 :: u) (n, Some v).

(* parameters separated by '&' or ';'; a final separator is allowed *)
Inductive Query : list byte -> list item -> Prop :=
| q_nil : Query [] []
| q_last t i : QField t i -> t <> [] -> Query t [i]
| q_cons t i s r items : QField t i -> separator s -> Query r items ->
    Query (t ++ s :: r) (i :: items).

(* A query must not begin with '=', '&' or ';'. *)
Definition query_start (t : list byte) : Prop :=
  match t with [] => True | b :: _ => b <> 61 /\ ~ separator b end.

(* the name as written and as reported *)
Definition lower (norm : bool) (b : byte) : byte :=
  if norm && (65 <=? b) && (b <=? 90) then b + 32 else b.

(* Field names as written: tokens and '/', without the delimiter. *)
Definition plain_name (d : byte) (n : list byte) : Prop :=
  Forall (fun b => (token b \/ b = 47) /\ b <> d) n.

(* the last byte of a name that ends the text must not be a '/' or, when
   normalising, an upper-case letter *)
Definition name_complete (norm : bool) (n : list byte) : Prop :=
  n <> [] /\ last n 0 <> 47 /\ ~ (norm = true /\ upper (last n 0)).

(* one unquoted field, followed by the delimiter *)
Inductive FField (norm : bool) (d : byte) : list byte -> item -> Prop :=
| ff_name w n : Forall ws w -> plain_name d n -> FField norm d (w ++ n) (map (lower norm) n, None)
| ff_pair w n w' v : Forall ws w -> plain_name d n -> Forall ws w' -> FPlain d v -> starts_plain v ->
    FField norm d (w ++ n ++ 61 :: w' ++ v) (map (lower norm) n, Some v).

(* the last field: its name is complete, or it has a value *)
Inductive FLast (norm : bool) (d : byte) : list byte -> item -> Prop :=
| fl_name w n : Forall ws w -> plain_name d n -> name_complete norm n ->
    FLast norm d (w ++ n) (map (lower norm) n, None)
| fl_pair w n w' v : Forall ws w -> plain_name d n -> Forall ws w' -> FPlain d v ->
    starts_plain v -> v <> [] ->
    FLast norm d (w ++ n ++ 61 :: w' ++ v) (map (lower norm) n, Some v)
| fl_quoted w n w' q v w'' : Forall ws w -> plain_name d n -> Forall ws w' -> FQuoted q v ->
    Forall ws w'' ->
    FLast norm d (w ++ n ++ 61 :: w' ++ 34 :: q ++ 34 :: w'') (map (lower norm) n, Some v).

(* unquoted fields separated by the delimiter; only the last one may have a
   quoted value; a final delimiter with white space is allowed *)
Inductive Fields (norm : bool) (d : byte) : list byte -> list item -> Prop :=
| f_end w : Forall ws w -> Fields norm d w []
| f_last t i : FLast norm d t i -> Fields norm d t [i]
| f_cons t i r items : FField norm d t i -> Fields norm d r items ->
    Fields norm d (t ++ d :: r) (i :: items).

(* quoting of an arbitrary byte string *)
Fixpoint quote (v : list byte) : list byte :=
  match v with [] => [] | b :: v' => 92 :: b :: quote v' end.

(* what the documentation leads one to expect: quoted values at any position *)
Inductive FExpected (norm : bool) (d : byte) : list byte -> list item -> Prop :=
| fe_last t i : FLast norm d t i -> FExpected norm d t [i]
| fe_cons t i r items : FField norm d t i \/ FLast norm d t i -> FExpected norm d r items ->
    FExpected norm d (t ++ d :: r) (i :: items).
