(* A program that serves requests with and without chunked bodies on one
   connection, with the parser and FieldIterator.  Vocabulary of C86. *)

From Coq Require Import NArith List Bool Arith String.
From Verif Require Import Bytes Http1Model Http1Spec Http1Wire Http1Program UtilModel UtilSpec FormSpec.
Import ListNotations.
Local Open Scope N_scope.
Local Open Scope list_scope.

(* ------------------------------------------------------------------ *)
(* The server                                                           *)
(* ------------------------------------------------------------------ *)

(* A request as it is received. *)
Record got := Got {
  g_method : list byte;
  g_url : list byte;
  g_fields : list (list byte * list byte);
  g_body : list byte;
  g_trailers : list (list byte * list byte)
}.

(* What its handler keeps: the requests, the last one first; whether it is being
   told a head; whether a head has just ended; the header field that is being
   received. *)
Record server := Server {
  reqs : list got;
  in_head : bool;
  due : bool;
  cur_name : list byte;
  cur_value : list byte
}.

Definition on_last (f : got -> got) (l : list got) : list got :=
  match l with [] => [] | g :: l => f g :: l end.

Definition add_field (head : bool) (x : list byte * list byte) (g : got) : got :=
  if head then Got (g_method g) (g_url g) (g_fields g ++ [x]) (g_body g) (g_trailers g)
  else Got (g_method g) (g_url g) (g_fields g) (g_body g) (g_trailers g ++ [x]).

(* A header field is complete when the next name begins or the header fields end. *)
Definition finish (s : server) : server :=
  match cur_value s with
  | [] => s
  | _ => Server (on_last (add_field (in_head s) (cur_name s, cur_value s)) (reqs s)) (in_head s) (due s) [] []
  end.

Definition take (s : server) (e : fevent) : server :=
  match e with
  | FByte KMethod b =>
      if in_head s then
        Server (on_last (fun g => Got (g_method g ++ [b]) (g_url g) (g_fields g) (g_body g) (g_trailers g)) (reqs s))
               true false (cur_name s) (cur_value s)
      else Server (Got [b] [] [] [] [] :: reqs s) true false [] []
  | FByte KUrl b =>
      Server (on_last (fun g => Got (g_method g) (g_url g ++ [b]) (g_fields g) (g_body g) (g_trailers g)) (reqs s))
             (in_head s) (due s) (cur_name s) (cur_value s)
  | FByte KHeaderName b =>
      let s := finish s in Server (reqs s) (in_head s) (due s) (cur_name s ++ [b]) (cur_value s)
  | FByte KHeaderValue b => Server (reqs s) (in_head s) (due s) (cur_name s) (cur_value s ++ [b])
  | FEv EHeadersFinished =>
      let s := finish s in Server (reqs s) false (in_head s) (cur_name s) (cur_value s)
  | FByte KChunkData b =>
      Server (on_last (fun g => Got (g_method g) (g_url g) (g_fields g) (g_body g ++ [b]) (g_trailers g)) (reqs s))
             (in_head s) (due s) (cur_name s) (cur_value s)
  | FEv EBodyFinished => Server (reqs s) (in_head s) false (cur_name s) (cur_value s)
  | _ => s
  end.

Definition taken (l : list fevent) : server := fold_left take l (Server [] false false [] []).
Definition served (l : list fevent) : list got := rev (reqs (taken l)).

(* The last transfer coding is "chunked", by FieldIterator with ',' and normalised
   names. *)
Definition chunked_coding (g : got) : bool :=
  match lookup (bs "transfer-encoding") (g_fields g) with
  | Some v =>
      let '(items, _, _) := field_all v 44 true in
      if list_eq_dec N.eq_dec (fst (last items ([], None))) (bs "chunked") then true else false
  | None => false
  end.

(* After a head with this coding a chunked body, otherwise a head. *)
Definition serve_requests : program := fun l =>
  let s := taken l in
  match reqs s with
  | g :: _ => if due s && chunked_coding g then Some AChunked else Some AHead
  | [] => Some AHead
  end.

(* ------------------------------------------------------------------ *)
(* The client                                                           *)
(* ------------------------------------------------------------------ *)

(* A request, and perhaps a body in chunks with trailers. *)
Definition sent := (request * option (list chunk * list header))%type.

Definition field_of (f : header) : list byte * list byte := (map lower_case (h_name f), full_value f).

(* The header field Transfer-Encoding is there if there is a body, and the last
   coding in it is chunked (RFC 7230, 3.3.1); codings are written as in C50. *)
Definition wf_sent (x : sent) : Prop :=
  wf_request (fst x) /\ hd 0 (q_method (fst x)) <> 72 /\
  match snd x with
  | None => lookup (bs "transfer-encoding") (map field_of (q_headers (fst x))) = None
  | Some (cs, ts) =>
      Forall wf_chunk cs /\ Forall wf_header ts /\
      exists v items o, lookup (bs "transfer-encoding") (map field_of (q_headers (fst x))) = Some v /\
        Fields true 44 v (items ++ [(bs "chunked", o)])
  end.

Definition on_wire (x : sent) : list byte :=
  render_request (fst x) ++ match snd x with None => [] | Some (cs, ts) => render_chunked cs ts end.

Definition meant (x : sent) : got :=
  Got (q_method (fst x)) (q_url (fst x)) (map field_of (q_headers (fst x)))
      (match snd x with None => [] | Some (cs, _) => flat_map c_data cs end)
      (match snd x with None => [] | Some (_, ts) => map field_of ts end).

(* How many messages the parser is used for. *)
Fixpoint messages (xs : list sent) : nat :=
  match xs with
  | [] => 0
  | x :: xs => match snd x with None => 1 | Some _ => 2 end + messages xs
  end.
