(* Specification: proper use of the HTTP/1 parser, and what an error tells. *)

From Coq Require Import NArith List Bool.
From Verif Require Import Bytes Http1Model.
Import ListNotations.
Local Open Scope N_scope.

(* The byte an error carries (/repo/src/http1/parse_error.rs). *)
Definition error_byte (e : perror) : option byte :=
  match e with
  | ErChunkExtensionName b | ErChunkExtensionValue b | ErChunkLength b | ErCrlfSequence b
  | ErHeaderName b | ErHeaderValue b | ErMethod b | ErMultipartBoundary b | ErStatus b
  | ErStatusCode b | ErUrl b | ErUrlEncodedName b | ErUrlEncodedValue b | ErVersion b => Some b
  | ErDead => None
  end.

(* Input a caller may pass: no byte 0xFF; for multipart a boundary has been
   set; the very first input after new() is not empty (first = true: nothing
   has been passed yet). *)
Definition feedable (first : bool) (p : parser) (s : list byte) : Prop :=
  Forall (fun b : byte => b < 255) s /\
  (parser_type p = Multipart -> boundary p <> None) /\
  (first = true -> s <> []).

(* Parsers a caller may have by using the public functions as intended, that
   is, passing such input only and not replacing the boundary once multipart
   parsing has begun. *)
Inductive proper : bool -> parser -> Prop :=
| proper_new : proper true new
| proper_reset v p : proper v p -> proper false (reset p)
| proper_chunked v p : proper v p -> proper false (init_chunked p)
| proper_head v p : proper v p -> proper false (init_head p)
| proper_multipart v p : proper v p -> proper false (init_multipart p)
| proper_url v p : proper v p -> proper false (init_url_encoded p)
| proper_boundary v p b : proper v p -> (parser_type p = Multipart -> p = reset p) ->
    proper v (set_boundary p b)
| proper_length v p n : proper v p -> proper v (set_length p n)
| proper_resume v p h log s p' log' r : proper v p -> feedable v p s ->
    resume h p log s = (p', log', r) -> proper false p'.

(* The public operations on a parser. *)
Inductive op :=
| OpInitChunked | OpInitHead | OpInitMultipart | OpInitUrlEncoded
| OpReset
| OpBoundary (b : list byte)
| OpLength (n : N)
| OpResume (s : list byte).

(* Performing one: parser, calls made to the handler, and what resume returns. *)
Definition perform (h : handler) (p : parser) (log : list event) (o : op)
  : parser * list event * option result :=
  match o with
  | OpInitChunked => (init_chunked p, log, None)
  | OpInitHead => (init_head p, log, None)
  | OpInitMultipart => (init_multipart p, log, None)
  | OpInitUrlEncoded => (init_url_encoded p, log, None)
  | OpReset => (reset p, log, None)
  | OpBoundary b => (set_boundary p b, log, None)
  | OpLength n => (set_length p n, log, None)
  | OpResume s => let '(p', log', r) := resume h p log s in (p', log', Some r)
  end.

(* What a caller sees of a sequence of operations: after each of them the
   returned value, all calls made to the handler so far, state(), and how far
   byte_count() has advanced from base. *)
Fixpoint observe (h : handler) (base : N) (p : parser) (log : list event) (ops : list op)
  : list (option result * list event * pstate * N) :=
  match ops with
  | [] => []
  | o :: ops' =>
      let '(p', log', r) := perform h p log o in
      (r, log', state p', byte_count p' - base) :: observe h base p' log' ops'
  end.
