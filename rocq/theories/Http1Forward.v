(* A program that passes a message on: it writes down what its handler is told,
   byte by byte and callback by callback, in a plain form.  Vocabulary of C79;
   independent of the parser model (only the type of observations is shared). *)

From Coq Require Import NArith List Bool Arith String.
From Verif Require Import Bytes Http1Model Http1Spec Http1Protocol Http1Wire.
Import ListNotations.
Local Open Scope N_scope.

(* What the program has to remember: the kind of the last byte, or the last
   callback without data. *)
Inductive said := Nothing | Byte (k : dkind) | Did (e : event).
Definition after (ev : fevent) : said := match ev with FByte k _ => Byte k | FEv e => Did e end.

(* What is written for a callback, after what was said before. *)
Definition writer := said -> fevent -> list byte.
Fixpoint write (text : writer) (s : said) (l : list fevent) : list byte :=
  match l with [] => [] | ev :: l' => text s ev ++ write text (after ev) l' end.

(* Numbers: decimal, exactly three digits, hexadecimal. *)
Definition ten (n : N) : list byte :=
  if n <? 10 then [48 + n]
  else if n <? 100 then [48 + n / 10; 48 + n mod 10]
  else [48 + n / 100; 48 + n / 10 mod 10; 48 + n mod 10].
Definition three (n : N) : list byte := [48 + n / 100; 48 + n / 10 mod 10; 48 + n mod 10].
Definition hex1 (n : N) : byte := if n <? 10 then 48 + n else 87 + n.
Fixpoint hex_from (digits : nat) (n : N) (ds : list byte) : list byte :=
  match digits with
  | O => ds
  | S k => if n <? 16 then hex1 n :: ds else hex_from k (n / 16) (hex1 (n mod 16) :: ds)
  end.
Definition hex (n : N) : list byte := hex_from 8 n [].

(* Header fields, one line for each: name, colon, space, value.  A value that
   comes first, without a name, is written as a line that begins with a space. *)
Definition field_text : writer := fun s ev =>
  match ev, s with
  | FByte KHeaderName b, Byte KHeaderValue => crlf ++ [b]
  | FByte KHeaderValue b, Byte KHeaderName => [58; 32; b]
  | FByte KHeaderValue b, Byte KHeaderValue => [b]
  | FByte KHeaderValue b, _ => [32; b]
  | FByte _ b, _ => [b]
  | FEv EHeadersFinished, Byte KHeaderValue => crlf ++ crlf
  | FEv EHeadersFinished, _ => crlf
  | _, _ => []
  end.

Definition head_text : writer := fun s ev =>
  match ev, s with
  | FByte KUrl b, Byte KMethod => [32; b]
  | FEv (EVersion major minor), _ =>
      match s with Nothing => [] | _ => [32] end ++ bs "HTTP/" ++ ten major ++ [46] ++ ten minor
  | FEv (EStatusCode c), _ => [32] ++ three c ++ [32]
  | FEv EInitialFinished, _ => crlf
  | _, _ => field_text s ev
  end.

(* Values of chunk extensions are quoted. *)
Definition quote (b : byte) : list byte := if (b =? 34) || (b =? 92) then [92; b] else [b].
Definition chunked_text : writer := fun s ev =>
  match ev, s with
  | FEv EChunkBegin, Nothing => []
  | FEv EChunkBegin, _ => crlf
  | FEv (EChunkLength n), _ => hex n
  | FByte KChunkExtName b, Byte KChunkExtName => [b]
  | FByte KChunkExtName b, _ => [59; b]
  | FByte KChunkExtValue b, Byte KChunkExtValue => quote b
  | FByte KChunkExtValue b, Byte KChunkExtName => [61; 34] ++ quote b
  | FByte KChunkExtValue b, _ => [59; 61; 34] ++ quote b
  | FEv EChunkExtFinished, Byte KChunkExtValue => [34]
  | FEv EChunkExtFinished, Byte KChunkExtName => []
  | FEv EChunkExtFinished, _ => [59; 61; 34; 34]
  | FEv EChunkExtsFinished, _ => crlf
  | _, Did (EChunkLength _) => crlf ++ field_text s ev
  | _, _ => field_text s ev
  end.

Definition multipart_text (bd : list byte) : writer := fun s ev =>
  let delimiter := match s with Nothing => [] | _ => crlf end ++ bs "--" ++ bd in
  match ev with
  | FEv EMultipartBegin => delimiter ++ crlf
  | FEv EBodyFinished => delimiter ++ bs "--"
  | _ => field_text s ev
  end.

(* Letters and digits are written as they are, everything else as an escape; a
   pair that is empty needs an equals sign. *)
Definition escape (b : byte) : list byte :=
  if ((48 <=? b) && (b <=? 57)) || ((65 <=? b) && (b <=? 90)) || ((97 <=? b) && (b <=? 122)) then [b]
  else [37; hex1 (b / 16); hex1 (b mod 16)].
Definition url_encoded_text : writer := fun s ev =>
  match ev, s with
  | FEv EUrlBegin, Nothing => []
  | FEv EUrlBegin, Did EUrlBegin => bs "=&"
  | FEv EUrlBegin, _ => bs "&"
  | FByte KUrlValue b, Byte KUrlValue => escape b
  | FByte KUrlValue b, _ => [61] ++ escape b
  | FByte _ b, _ => escape b
  | FEv EBodyFinished, Did EUrlBegin => bs "="
  | _, _ => []
  end.

(* The messages written for the calls log. *)
Definition head_written (log : list event) : list byte := write head_text Nothing (flat log).
Definition chunked_written (log : list event) : list byte := write chunked_text Nothing (flat log).
Definition multipart_written (bd : list byte) (log : list event) : list byte :=
  write (multipart_text bd) Nothing (flat log).
Definition url_encoded_written (log : list event) : list byte := write url_encoded_text Nothing (flat log).

(* No value comes before the first name. *)
Definition named (l : list fevent) : Prop :=
  forall x b y, l <> x ++ [FEv EInitialFinished; FByte KHeaderValue b] ++ y.

(* Plain messages: nothing before them, one space in front of values, no lines
   that continue others. *)
Definition plain_header (f : header) : Prop := h_pad f = [32] /\ h_folds f = [].
Definition plain_request (q : request) : Prop := q_blank q = [] /\ Forall plain_header (q_headers q).
Definition plain_response (r : response) : Prop := r_blank r = [] /\ Forall plain_header (r_headers r).
