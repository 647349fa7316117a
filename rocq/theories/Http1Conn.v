(* Connections: messages back to back, one parser.  Vocabulary. *)

From Coq Require Import NArith List Bool.
From Verif Require Import Bytes Http1Model Http1Spec Http1Wire.
Import ListNotations.
Local Open Scope N_scope.

(* What may follow what came before: a head, or a body in one of the three forms. *)
Inductive message :=
| MRequest (q : request)
| MResponse (r : response)
| MChunked (cs : list chunk) (trailers : list header)
| MMultipart (boundary : list byte) (ps : list part)
| MUrlEncoded (ps : list url_pair) (w : list byte).

(* How a program prepares the parser for it. *)
Definition prepare (m : message) (p : parser) : parser :=
  match m with
  | MRequest _ | MResponse _ => init_head p
  | MChunked _ _ => init_chunked p
  | MMultipart bd _ => set_boundary (init_multipart p) bd
  | MUrlEncoded _ w => set_length (init_url_encoded p) (N.of_nat (List.length w))
  end.

Definition wire (m : message) : list byte :=
  match m with
  | MRequest q => render_request q
  | MResponse r => render_response r
  | MChunked cs ts => render_chunked cs ts
  | MMultipart bd ps => render_multipart bd ps
  | MUrlEncoded _ w => w
  end.

Definition seen (m : message) : list fevent :=
  match m with
  | MRequest q => seen_request q
  | MResponse r => seen_response r
  | MChunked cs ts => seen_chunked cs ts
  | MMultipart _ ps => seen_multipart ps
  | MUrlEncoded ps _ => seen_pairs ps
  end.

(* Well-formed; clen: the answers of content_length().  Methods beginning with H
   are left out because of C08. *)
Definition wf_message (clen : list fevent -> option N) (before : list fevent) (m : message) : Prop :=
  match m with
  | MRequest q => wf_request q /\ hd 0 (q_method q) <> 72
  | MResponse r => wf_response r
  | MChunked cs ts => Forall wf_chunk cs /\ Forall wf_header ts
  | MMultipart bd ps =>
      ~ In 13 bd /\ N.of_nat (List.length bd) <= 2 ^ 14 /\
      Forall wf_part ps /\ answers clen before ps
  | MUrlEncoded ps w => body_wire ps w
  end.

Fixpoint wf_messages (clen : list fevent -> option N) (before : list fevent) (ms : list message) : Prop :=
  match ms with
  | [] => True
  | m :: ms' => wf_message clen before m /\ wf_messages clen (before ++ seen m) ms'
  end.

(* The client of Http1Spec.v, for one message; what it has not used are pieces. *)
Fixpoint turn (fuel : nat) (h : handler) (p : parser) (log : list event) (segs : list (list byte))
  : parser * list event * list (list byte) * ending :=
  match segs with
  | [] => (p, log, [], OEos)
  | seg :: more =>
      match fuel with
      | O => (p, log, segs, OFuel)
      | S fuel' =>
          let '(p', log', r) := resume h p log seg in
          match r with
          | ROk (SEos n) => turn fuel' h p' log' more
          | ROk (SCallback n) => turn fuel' h p' log' (skipn n seg :: more)
          | ROk (SFinished n) => (p', log', skipn n seg :: more, OFinished)
          | RErr e => (p', log', segs, OError e)
          | RFault f => (p', log', segs, OFault f)
          | RFuel => (p', log', segs, OFuel)
          end
      end
  end.

(* A program that expects the messages ms, one after the other, with one parser and
   one handler. *)
Fixpoint serve (h : handler) (p : parser) (log : list event) (ms : list message) (segs : list (list byte))
  : parser * list event * list (list byte) * ending :=
  match ms with
  | [] => (p, log, segs, OFinished)
  | m :: ms' =>
      let '(p', log', segs', o) := turn (calls segs) h (prepare m p) log segs in
      match o with
      | OFinished => serve h p' log' ms' segs'
      | _ => (p', log', segs', o)
      end
  end.

(* The length of all the URL-encoded bodies. *)
Fixpoint url_encoded_length (ms : list message) : N :=
  match ms with
  | [] => 0
  | MUrlEncoded _ w :: ms' => N.of_nat (List.length w) + url_encoded_length ms'
  | _ :: ms' => url_encoded_length ms'
  end.
