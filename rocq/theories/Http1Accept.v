(* The language the HTTP/1 parser accepts and what a handler sees of it, as
   relations between bytes on the wire and observations.  It contains the
   well-formed messages of Http1Wire.v and what the parser tolerates besides:
   empty names, continuation lines before the first header field, empty chunk
   extensions, escapes cut off by the end of a URL-encoded body.  Vocabulary of
   the properties on acceptance; independent of the parser model. *)

From Coq Require Import NArith List Bool Arith String.
From Verif Require Import Bytes Http1Model Http1Spec Http1Protocol Http1Wire.
Import ListNotations.
Local Open Scope N_scope.

(* ------------------------------------------------------------------ *)
(* Header lines                                                         *)
(* ------------------------------------------------------------------ *)

(* A field (its name may be empty), or a line continuing the preceding one (if
   there is one). *)
Inductive line_as : list byte -> list fevent -> Prop :=
| line_field n p v :
    Forall (fun b => tchar b = true) n -> padding p ->
    starts_visible v -> field_text_ok Plain v = true ->
    line_as (n ++ [58] ++ p ++ v ++ crlf)
         (map (FByte KHeaderName) (map lower_case n) ++ map (FByte KHeaderValue) v)
| line_more c v :
    c = 32 \/ c = 9 -> field_text_ok Plain v = true ->
    line_as (c :: v ++ crlf) (map (FByte KHeaderValue) v).

(* Lines and the empty line that ends them. *)
Inductive lines_as : list byte -> list fevent -> Prop :=
| lines_end : lines_as crlf [FEv EHeadersFinished]
| lines_line w e w' e' : line_as w e -> lines_as w' e' -> lines_as (w ++ w') (e ++ e').

(* ------------------------------------------------------------------ *)
(* Heads                                                                *)
(* ------------------------------------------------------------------ *)

Inductive head_as : list byte -> list fevent -> Prop :=
| head_request w m u v x e :
    blank w -> m <> [] -> Forall (fun b : byte => 65 <= b <= 90) m ->
    u <> [] -> Forall (fun b => visible_byte b = true) u -> wf_version v -> lines_as x e ->
    head_as (w ++ m ++ [32] ++ u ++ [32] ++ render_version v ++ crlf ++ x)
         (map (FByte KMethod) m ++ map (FByte KUrl) u ++ [seen_version v; FEv EInitialFinished] ++ e)
| head_response w v c u x e :
    blank w -> wf_version v -> List.length c = 3%nat -> Forall digit c ->
    u <> [] -> Forall (fun b : byte => 32 <= b /\ b <> 127) u -> lines_as x e ->
    head_as (w ++ render_version v ++ [32] ++ c ++ [32] ++ u ++ crlf ++ x)
         ([seen_version v; FEv (EStatusCode (decimal c))] ++ map (FByte KStatus) u ++
          [FEv EInitialFinished] ++ e).

(* ------------------------------------------------------------------ *)
(* Chunked bodies                                                       *)
(* ------------------------------------------------------------------ *)

(* An extension.  If its name is empty and it has no value, or if its value is
   empty, it has to be followed by another one (last = false). *)
Inductive extension_as : bool -> list byte -> list fevent -> Prop :=
| ext_only last p n :
    padding p -> Forall (fun b => tchar b = true) n -> (last = true -> n <> []) ->
    extension_as last ([59] ++ p ++ n)
      (map (FByte KChunkExtName) (map lower_case n) ++ [FEv EChunkExtFinished])
| ext_both last p n p' v :
    padding p -> Forall (fun b => tchar b = true) n -> padding p' ->
    v = [] \/ starts_visible v -> field_text_ok Plain v = true -> no_bare_semicolon Plain v = true ->
    (last = true -> v <> []) ->
    extension_as last ([59] ++ p ++ n ++ [61] ++ p' ++ v)
      (map (FByte KChunkExtName) (map lower_case n) ++
       map (FByte KChunkExtValue) (unquoted Plain v) ++ [FEv EChunkExtFinished]).

Inductive extensions_as : list byte -> list fevent -> Prop :=
| exts_last w e : extension_as true w e -> extensions_as w e
| exts_more w e w' e' : extension_as false w e -> extensions_as w' e' -> extensions_as (w ++ w') (e ++ e').

(* The length of a chunk: no leading zero. *)
Definition chunk_size (ds : list byte) : Prop :=
  (1 <= List.length ds <= 8)%nat /\ Forall hexdigit ds /\ hd 48 ds <> 48.

(* A chunk followed by others.  With extensions, its length may be zero. *)
Inductive chunk_as : list byte -> list fevent -> Prop :=
| chunk_plain ds d :
    chunk_size ds -> hexadecimal ds = N.of_nat (List.length d) ->
    chunk_as (ds ++ crlf ++ d ++ crlf)
      ([FEv EChunkBegin; FEv (EChunkLength (hexadecimal ds)); FEv EChunkExtsFinished] ++ map (FByte KChunkData) d)
| chunk_ext ds x e d :
    chunk_size ds \/ ds = [48] -> hexadecimal ds = N.of_nat (List.length d) -> extensions_as x e ->
    chunk_as (ds ++ x ++ crlf ++ d ++ crlf)
      ([FEv EChunkBegin; FEv (EChunkLength (hexadecimal ds))] ++ e ++ [FEv EChunkExtsFinished] ++
       map (FByte KChunkData) d).

(* Chunks, the chunk "0" without extensions, trailers. *)
Inductive chunked_as : list byte -> list fevent -> Prop :=
| chunked_end x e : lines_as x e ->
    chunked_as ([48] ++ crlf ++ x) ([FEv EChunkBegin; FEv (EChunkLength 0)] ++ e ++ [FEv EBodyFinished])
| chunked_chunk w e w' e' : chunk_as w e -> chunked_as w' e' -> chunked_as (w ++ w') (e ++ e').

(* ------------------------------------------------------------------ *)
(* Multipart bodies                                                     *)
(* ------------------------------------------------------------------ *)

(* Data of a part without declared length, in front of the delimiter CR LF "--"
   boundary: a beginning of the delimiter is data together with the byte that
   differs, except when the difference is in the boundary itself; then only the
   beginning is, and that byte may start the delimiter. *)
Inductive delimited (bd : list byte) : list byte -> Prop :=
| del_nil : delimited bd []
| del_byte b d : b <> 13 -> delimited bd d -> delimited bd (b :: d)
| del_cr b d : b <> 10 -> delimited bd d -> delimited bd ([13; b] ++ d)
| del_lf b d : b <> 45 -> delimited bd d -> delimited bd ([13; 10; b] ++ d)
| del_hyphen b d : b <> 45 -> delimited bd d -> delimited bd ([13; 10; 45; b] ++ d)
| del_boundary x y z d : bd = x ++ y :: z -> hd_error d <> Some y -> delimited bd d ->
    delimited bd ([13; 10; 45; 45] ++ x ++ d).

(* What follows a boundary, having seen l: the end, or a part.  Its data has
   the declared length, if the handler, asked after the header fields, declares
   one. *)
Inductive parts_as (bd : list byte) (clen : list fevent -> option N)
  : list fevent -> list byte -> list fevent -> Prop :=
| parts_end l : parts_as bd clen l (bs "--") [FEv EBodyFinished]
| parts_part l x e d w e' :
    lines_as x e ->
    match clen (l ++ [FEv EMultipartBegin] ++ e) with
    | Some n => n = N.of_nat (List.length d)
    | None => delimited bd d
    end ->
    parts_as bd clen (l ++ [FEv EMultipartBegin] ++ e ++ [FEv EContentLength] ++ map (FByte KMultipartData) d) w e' ->
    parts_as bd clen l (crlf ++ x ++ d ++ crlf ++ bs "--" ++ bd ++ w)
      ([FEv EMultipartBegin] ++ e ++ [FEv EContentLength] ++ map (FByte KMultipartData) d ++ e').

Inductive multipart_as (bd : list byte) (clen : list fevent -> option N) : list byte -> list fevent -> Prop :=
| multipart_parts w e : parts_as bd clen [] w e -> multipart_as bd clen (bs "--" ++ bd ++ w) e.

(* ------------------------------------------------------------------ *)
(* URL-encoded bodies                                                   *)
(* ------------------------------------------------------------------ *)

(* coded stop d w: the bytes d written as w, without the bytes stop. *)
Inductive coded (stop : list byte) : list byte -> list byte -> Prop :=
| coded_nil : coded stop [] []
| coded_literal b d w :
    visible_byte b = true -> ~ In b (bs "%+") -> ~ In b stop -> coded stop d w ->
    coded stop (b :: d) (b :: w)
| coded_plus d w : coded stop d w -> coded stop (32 :: d) (43 :: w)
| coded_escape x y d w : hexdigit x -> hexdigit y -> coded stop d w ->
    coded stop (16 * hexval x + hexval y :: d) (37 :: x :: y :: w).

(* An escape that is cut off. *)
Definition cut_escape (w : list byte) : Prop :=
  w = [] \/ w = [37] \/ exists x, hexdigit x /\ w = [37; x].

(* A pair, perhaps cut off inside an escape. *)
Inductive pair_as : list byte -> list byte -> list fevent -> Prop :=
| pair_only n w c : cut_escape c -> coded (bs "=&;") n w ->
    pair_as c (w ++ c) ([FEv EUrlBegin] ++ map (FByte KUrlName) n)
| pair_both n v w w' c : cut_escape c -> coded (bs "=&;") n w -> coded (bs "&;") v w' ->
    pair_as c (w ++ [61] ++ w' ++ c) ([FEv EUrlBegin] ++ map (FByte KUrlName) n ++ map (FByte KUrlValue) v).

(* Pairs separated by '&' or ';'; nothing follows the last separator, or a
   pair, possibly cut off. *)
Inductive pairs_as : list byte -> list fevent -> Prop :=
| pairs_nil : pairs_as [] []
| pairs_last c w e : w <> [] -> pair_as c w e -> pairs_as w e
| pairs_more w e s w' e' : pair_as [] w e -> s = 38 \/ s = 59 -> pairs_as w' e' -> pairs_as (w ++ [s] ++ w') (e ++ e').
