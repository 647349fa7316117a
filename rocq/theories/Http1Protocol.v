(* Specification of what the HTTP/1 parser may report: which bytes in which
   callback, and which callbacks in which order.  Independent of the state
   functions. *)

From Coq Require Import NArith List Bool Arith String.
From Verif Require Import Bytes Http1Model.
Import ListNotations.
Local Open Scope N_scope.

(* ------------------------------------------------------------------ *)
(* Bytes                                                                *)
(* ------------------------------------------------------------------ *)

(* RFC 7230 3.2.6: tchar. *)
Definition tchar (b : byte) : bool :=
  ((48 <=? b) && (b <=? 57)) || ((65 <=? b) && (b <=? 90)) || ((97 <=? b) && (b <=? 122)) ||
  existsb (N.eqb b) (bs "!#$%&'*+-.^_`|~").

(* A tchar that is not an upper-case letter. *)
Definition lower_tchar (b : byte) : bool := tchar b && negb ((65 <=? b) && (b <=? 90)).

(* No control byte, except TAB. *)
Definition text_byte (b : byte) : bool := (b =? 9) || ((32 <=? b) && negb (b =? 127)).

(* Bytes allowed in the data of a callback. *)
Definition ok_data (k : dkind) (b : byte) : bool :=
  match k with
  | KMethod => (65 <=? b) && (b <=? 90)
  | KUrl => (33 <=? b) && (b <=? 126)
  | KStatus => (32 <=? b) && negb (b =? 127)
  | KHeaderName | KChunkExtName => lower_tchar b
  | KHeaderValue | KChunkExtValue => text_byte b
  | KChunkData | KMultipartData | KUrlName | KUrlValue => true
  end.

(* A data callback is given at least one byte, all of them allowed. *)
Definition ok_event (e : event) : Prop :=
  match e with
  | EData k d => d <> [] /\ Forall (fun b => ok_data k b = true) d
  | _ => True
  end.

(* ------------------------------------------------------------------ *)
(* Order                                                                *)
(* ------------------------------------------------------------------ *)

(* Where in a message the reports have got to.  The number in the chunk phases
   is the size announced by on_chunk_length, in CData what remains of it. *)
Inductive phase :=
(* heads *)
| HStart | HMethod | HUrl | HRequest | HVersion | HCode | HStatus | HHeaders
(* chunked bodies *)
| CStart | CBegun | CLen (n : N) | CName (n : N) | CVal (n : N) | CExt (n : N) | CData (n : N)
| CTrailer | CEnd
(* multipart bodies *)
| MStart | MHeaders | MAsk | MData
(* URL-encoded bodies *)
| UStart | UName | UValue
(* everything has been reported *)
| PDone.

(* First phase of a parser. *)
Definition phase0 (t : ptype) : phase :=
  match t with
  | Head => HStart | Chunked => CStart | Multipart => MStart | UrlEncoded => UStart
  end.

(* The next phase, if this call may be made in this phase. *)
Definition pstep (ph : phase) (e : event) : option phase :=
  match ph, e with
  (* request line: method, URL, version; status line: version, code, reason *)
  | HStart, EData KMethod _ => Some HMethod
  | HMethod, EData KMethod _ => Some HMethod
  | HMethod, EData KUrl _ => Some HUrl
  | HUrl, EData KUrl _ => Some HUrl
  | HUrl, EVersion _ _ => Some HRequest
  | HStart, EVersion _ _ => Some HVersion
  | HVersion, EStatusCode _ => Some HCode
  | HCode, EData KStatus _ => Some HStatus
  | HStatus, EData KStatus _ => Some HStatus
  | HRequest, EInitialFinished => Some HHeaders
  | HStatus, EInitialFinished => Some HHeaders
  (* headers *)
  | HHeaders, EData KHeaderName _ => Some HHeaders
  | HHeaders, EData KHeaderValue _ => Some HHeaders
  | HHeaders, EHeadersFinished => Some PDone
  (* chunks: begin, length, extensions, data *)
  | CStart, EChunkBegin => Some CBegun
  | CBegun, EChunkLength n => Some (CLen n)
  | CLen n, EData KChunkExtName _ => Some (CName n)
  | CLen n, EData KChunkExtValue _ => Some (CVal n)
  | CLen n, EChunkExtFinished => Some (CExt n)
  | CLen n, EChunkExtsFinished => Some (CData n)
  | CName n, EData KChunkExtName _ => Some (CName n)
  | CName n, EData KChunkExtValue _ => Some (CVal n)
  | CName n, EChunkExtFinished => Some (CExt n)
  | CVal n, EData KChunkExtValue _ => Some (CVal n)
  | CVal n, EChunkExtFinished => Some (CExt n)
  | CExt n, EData KChunkExtName _ => Some (CName n)
  | CExt n, EData KChunkExtValue _ => Some (CVal n)
  | CExt n, EChunkExtFinished => Some (CExt n)
  | CExt n, EChunkExtsFinished => Some (CData n)
  | CData n, EData KChunkData d =>
      if N.of_nat (List.length d) <=? n then Some (CData (n - N.of_nat (List.length d))) else None
  | CData n, EChunkBegin => if n =? 0 then Some CBegun else None
  (* last chunk and trailer *)
  | CLen n, EData KHeaderName _ => if n =? 0 then Some CTrailer else None
  | CLen n, EData KHeaderValue _ => if n =? 0 then Some CTrailer else None
  | CLen n, EHeadersFinished => if n =? 0 then Some CEnd else None
  | CTrailer, EData KHeaderName _ => Some CTrailer
  | CTrailer, EData KHeaderValue _ => Some CTrailer
  | CTrailer, EHeadersFinished => Some CEnd
  | CEnd, EBodyFinished => Some PDone
  (* parts: begin, headers, content_length(), data *)
  | MStart, EMultipartBegin => Some MHeaders
  | MStart, EBodyFinished => Some PDone
  | MHeaders, EData KHeaderName _ => Some MHeaders
  | MHeaders, EData KHeaderValue _ => Some MHeaders
  | MHeaders, EHeadersFinished => Some MAsk
  | MAsk, EContentLength => Some MData
  | MData, EData KMultipartData _ => Some MData
  | MData, EMultipartBegin => Some MHeaders
  | MData, EBodyFinished => Some PDone
  (* pairs: begin, name, value *)
  | UStart, EUrlBegin => Some UName
  | UName, EData KUrlName _ => Some UName
  | UName, EData KUrlValue _ => Some UValue
  | UValue, EData KUrlValue _ => Some UValue
  | UName, EUrlBegin => Some UName
  | UValue, EUrlBegin => Some UName
  | UStart, EBodyFinished => Some PDone
  | UName, EBodyFinished => Some PDone
  | UValue, EBodyFinished => Some PDone
  | _, _ => None
  end.

(* The phase after a sequence of calls, if they are in order. *)
Fixpoint prun (ph : phase) (l : list event) : option phase :=
  match l with
  | [] => Some ph
  | e :: l' => match pstep ph e with Some ph' => prun ph' l' | None => None end
  end.
