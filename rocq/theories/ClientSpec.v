(* A program that receives responses with and without chunked bodies on one
   connection, with the parser and FieldIterator.  Vocabulary of C87. *)

From Coq Require Import NArith List Bool Arith String.
From Verif Require Import Bytes Http1Model Http1Spec Http1Wire Http1Program UtilModel UtilSpec FormSpec.
Import ListNotations.
Local Open Scope N_scope.
Local Open Scope list_scope.

(* ------------------------------------------------------------------ *)
(* The client                                                           *)
(* ------------------------------------------------------------------ *)

(* A response as it is received: version and status code, reason, header fields,
   body, trailers. *)
Record reply := Reply {
  n_status : N * N * N;
  n_reason : list byte;
  n_fields : list (list byte * list byte);
  n_body : list byte;
  n_trailers : list (list byte * list byte)
}.

(* What its handler keeps: the responses, the last one first; whether it is being
   told a head; whether a head has just ended; the header field that is being
   received. *)
Record client := Client {
  replies : list reply;
  hears_head : bool;
  body_due : bool;
  this_name : list byte;
  this_value : list byte
}.

Definition on_newest (f : reply -> reply) (l : list reply) : list reply :=
  match l with [] => [] | g :: l => f g :: l end.

Definition put_field (head : bool) (x : list byte * list byte) (g : reply) : reply :=
  if head then Reply (n_status g) (n_reason g) (n_fields g ++ [x]) (n_body g) (n_trailers g)
  else Reply (n_status g) (n_reason g) (n_fields g) (n_body g) (n_trailers g ++ [x]).

(* A header field is complete when the next name begins or the header fields end. *)
Definition end_field (s : client) : client :=
  match this_value s with
  | [] => s
  | _ => Client (on_newest (put_field (hears_head s) (this_name s, this_value s)) (replies s)) (hears_head s) (body_due s) [] []
  end.

Definition hear (s : client) (e : fevent) : client :=
  match e with
  | FEv (EVersion i j) => Client (Reply (i, j, 0) [] [] [] [] :: replies s) true false [] []
  | FEv (EStatusCode c) =>
      Client (on_newest (fun g => Reply (fst (n_status g), c) (n_reason g) (n_fields g) (n_body g) (n_trailers g)) (replies s))
             (hears_head s) (body_due s) (this_name s) (this_value s)
  | FByte KStatus b =>
      Client (on_newest (fun g => Reply (n_status g) (n_reason g ++ [b]) (n_fields g) (n_body g) (n_trailers g)) (replies s))
             (hears_head s) (body_due s) (this_name s) (this_value s)
  | FByte KHeaderName b =>
      let s := end_field s in Client (replies s) (hears_head s) (body_due s) (this_name s ++ [b]) (this_value s)
  | FByte KHeaderValue b => Client (replies s) (hears_head s) (body_due s) (this_name s) (this_value s ++ [b])
  | FEv EHeadersFinished =>
      let s := end_field s in Client (replies s) false (hears_head s) (this_name s) (this_value s)
  | FByte KChunkData b =>
      Client (on_newest (fun g => Reply (n_status g) (n_reason g) (n_fields g) (n_body g ++ [b]) (n_trailers g)) (replies s))
             (hears_head s) (body_due s) (this_name s) (this_value s)
  | FEv EBodyFinished => Client (replies s) (hears_head s) false (this_name s) (this_value s)
  | _ => s
  end.

Definition heard (l : list fevent) : client := fold_left hear l (Client [] false false [] []).
Definition received (l : list fevent) : list reply := rev (replies (heard l)).

(* The last transfer coding is "chunked", by FieldIterator with ',' and normalised
   names. *)
Definition coded_chunked (g : reply) : bool :=
  match lookup (bs "transfer-encoding") (n_fields g) with
  | Some v =>
      let '(items, _, _) := field_all v 44 true in
      if list_eq_dec N.eq_dec (fst (last items ([], None))) (bs "chunked") then true else false
  | None => false
  end.

(* After a head with this coding a chunked body, otherwise a head. *)
Definition receive_responses : program := fun l =>
  let s := heard l in
  match replies s with
  | g :: _ => if body_due s && coded_chunked g then Some AChunked else Some AHead
  | [] => Some AHead
  end.

(* ------------------------------------------------------------------ *)
(* The server                                                           *)
(* ------------------------------------------------------------------ *)

(* A response, and perhaps a body in chunks with trailers. *)
Definition answer := (response * option (list chunk * list header))%type.

Definition as_field (f : header) : list byte * list byte := (map lower_case (h_name f), full_value f).

(* The header field Transfer-Encoding is there if there is a body, and the last
   coding in it is chunked (RFC 7230, 3.3.1); codings are written as in C50. *)
Definition wf_answer (x : answer) : Prop :=
  wf_response (fst x) /\
  match snd x with
  | None => lookup (bs "transfer-encoding") (map as_field (r_headers (fst x))) = None
  | Some (cs, ts) =>
      Forall wf_chunk cs /\ Forall wf_header ts /\
      exists v items o, lookup (bs "transfer-encoding") (map as_field (r_headers (fst x))) = Some v /\
        Fields true 44 v (items ++ [(bs "chunked", o)])
  end.

Definition as_sent (x : answer) : list byte :=
  render_response (fst x) ++ match snd x with None => [] | Some (cs, ts) => render_chunked cs ts end.

Definition told (x : answer) : reply :=
  Reply (decimal (fst (r_version (fst x))), decimal (snd (r_version (fst x))), decimal (r_code (fst x)))
      (r_reason (fst x)) (map as_field (r_headers (fst x)))
      (match snd x with None => [] | Some (cs, _) => flat_map c_data cs end)
      (match snd x with None => [] | Some (_, ts) => map as_field ts end).

(* How many messages the parser is used for. *)
Fixpoint uses (xs : list answer) : nat :=
  match xs with
  | [] => 0
  | x :: xs => match snd x with None => 1 | Some _ => 2 end + uses xs
  end.
