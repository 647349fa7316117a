(* Vocabulary in which the properties of the HTTP/1 parser are stated: the
   parsers a program can get hold of, and the client that feeds a stream.
   Nothing here is used by the model itself. *)

From Coq Require Import NArith List Bool Arith String.
From Verif Require Import Bytes Http1Model.
Import ListNotations.
Local Open Scope N_scope.

(* ------------------------------------------------------------------ *)
(* Parsers a program can hold                                           *)
(* ------------------------------------------------------------------ *)

(* Created by Parser::new and changed by calls of the public methods; a panic
   or undefined behaviour ends the program. *)
Inductive reachable : parser -> Prop :=
| reach_new : reachable new
| reach_reset p : reachable p -> reachable (reset p)
| reach_chunked p : reachable p -> reachable (init_chunked p)
| reach_head p : reachable p -> reachable (init_head p)
| reach_multipart p : reachable p -> reachable (init_multipart p)
| reach_url p : reachable p -> reachable (init_url_encoded p)
| reach_boundary p b : reachable p -> reachable (set_boundary p b)
| reach_length p n : reachable p -> reachable (set_length p n)
| reach_resume p h log s p' log' r :
    reachable p -> resume h p log s = (p', log', r) ->
    (forall f, r <> RFault f) -> reachable p'.

(* The part of a supplied stream a parser may look at: everything, except that
   a URL-encoded body is cut at its remaining declared length. *)
Definition visible (p : parser) (s : list byte) : list byte :=
  match parser_type p with
  | UrlEncoded => firstn (N.to_nat (plength p)) s
  | _ => s
  end.

(* A handler that never pauses and knows no content length; one that pauses at
   every callback. *)
Definition yes : handler := Handler (fun _ _ => true) (fun _ => None).
Definition never : handler := Handler (fun _ _ => false) (fun _ => None).

(* ------------------------------------------------------------------ *)
(* The dispatch loop                                                    *)
(* ------------------------------------------------------------------ *)

(* The loop of Parser::parse (/repo/src/http1/parser.rs:217-238) executes n
   state functions from m on and leaves with outcome o in m'. *)
Inductive dispatch (h : handler) : nat -> mach -> mach -> outcome -> Prop :=
| dispatch_stop m m' o : run_fn h m = (m', o) -> o <> Continue -> dispatch h 1 m m' o
| dispatch_go n m m1 m' o :
    run_fn h m = (m1, Continue) -> dispatch h n m1 m' o -> dispatch h (S n) m m' o.

(* ------------------------------------------------------------------ *)
(* Observations                                                         *)
(* ------------------------------------------------------------------ *)

(* What an observer sees who does not care how the bytes of an item were cut
   into fragments: one byte delivered to the data callback of kind k, or any
   other call.  (/repo/src/http1/http_handler.rs:22-290) *)
Inductive fevent :=
| FByte (k : dkind) (b : byte)
| FEv (e : event).

(* Observations made by one handler call. *)
Definition flat1 (e : event) : list fevent :=
  match e with
  | EData k d => map (FByte k) d
  | _ => [FEv e]
  end.

(* Observations made by a history of handler calls. *)
Definition flat (l : list event) : list fevent := flat_map flat1 l.

(* The bytes delivered to the data callback of one kind, concatenated. *)
Definition dkind_dec (k k' : dkind) : {k = k'} + {k <> k'}.
Proof. decide equality. Defined.

Fixpoint data_of (k : dkind) (l : list event) : list byte :=
  match l with
  | EData k' d :: l' => if dkind_dec k k' then d ++ data_of k l' else data_of k l'
  | _ :: l' => data_of k l'
  | [] => []
  end.

(* CR LF *)
Definition crlf : list byte := [13; 10].

(* ------------------------------------------------------------------ *)
(* Messages beginning with H                                            *)
(* ------------------------------------------------------------------ *)

(* One of the two is a prefix of the other. *)
Fixpoint cmpb (a b : list byte) : bool :=
  match a, b with
  | x :: a', y :: b' => (x =? y) && cmpb a' b'
  | _, _ => true
  end.

(* Leading CR, LF, TAB and space dropped. *)
Fixpoint strip (r : list byte) : list byte :=
  match r with
  | b :: r' => if (b =? 13) || (b =? 10) || (b =? 9) || (b =? 32) then strip r' else r
  | [] => []
  end.

(* The bytes do not start with a method beginning with H: they do not start
   with H, or they agree with "HTTP/" as far as they go. *)
Definition hok (r : list byte) : bool :=
  match r with
  | b :: r' => if b =? 72 then cmpb r' (bs "TTP/") else true
  | [] => true
  end.

(* ------------------------------------------------------------------ *)
(* The client                                                           *)
(* ------------------------------------------------------------------ *)

(* How feeding a stream ends. *)
Inductive ending :=
| OEos                   (* everything consumed, more input expected *)
| OFinished              (* the parser reported Finished *)
| OError (e : perror)
| OFault (f : fault)     (* panic or undefined behaviour *)
| OFuel.                 (* not enough fuel for this definition *)

(* A client feeding the pieces segs one after the other.  When the handler
   pauses the parser (Callback(n)), it feeds the rest of the piece again, be it
   empty.  Result: the parser, the calls made, the unconsumed bytes. *)
Fixpoint client (fuel : nat) (h : handler) (p : parser) (log : list event)
         (segs : list (list byte)) : parser * list event * list byte * ending :=
  match segs with
  | [] => (p, log, [], OEos)
  | seg :: more =>
      match fuel with
      | O => (p, log, List.concat segs, OFuel)
      | S fuel' =>
          let '(p', log', r) := resume h p log seg in
          match r with
          | ROk (SEos n) => client fuel' h p' log' more
          | ROk (SCallback n) => client fuel' h p' log' (skipn n seg :: more)
          | ROk (SFinished n) => (p', log', skipn n seg ++ List.concat more, OFinished)
          | RErr e => (p', log', [], OError e)
          | RFault f => (p', log', [], OFault f)
          | RFuel => (p', log', [], OFuel)
          end
      end
  end.

(* Number of resume calls that is always sufficient. *)
Fixpoint calls (segs : list (list byte)) : nat :=
  match segs with
  | [] => 0
  | seg :: more => 8 * List.length seg + 8 + calls more
  end.

(* Feed the pieces to a parser whose handler has not been called yet. *)
Definition feed (h : handler) (p : parser) (segs : list (list byte))
  : parser * list event * list byte * ending :=
  client (calls segs) h p [] segs.

(* ------------------------------------------------------------------ *)
(* Comparing two ways of feeding                                        *)
(* ------------------------------------------------------------------ *)

(* l' continues l. *)
Definition pre {X} (l l' : list X) : Prop := exists x, l' = l ++ x.

(* L is all of l, except perhaps for the last bytes of one item. *)
Definition nearly (l L : list fevent) : Prop := exists k d, L = l ++ map (FByte k) d.

(* Same error up to the byte reported with MultipartBoundary. *)
Definition same_kind (e e' : perror) : Prop :=
  match e, e' with
  | ErMultipartBoundary _, ErMultipartBoundary _ => True
  | _, _ => e = e'
  end.

(* Two ways of feeding the same stream end alike: the same ending, the same
   observations, the same state() and the same bytes left.  When the stream is
   in error, one has perhaps reported less of the item in which the error
   occurs. *)
Definition alike (same_error : perror -> perror -> Prop)
           (r1 r2 : parser * list event * list byte * ending) : Prop :=
  let '(p1, l1, rest1, o1) := r1 in
  let '(p2, l2, rest2, o2) := r2 in
  match o1, o2 with
  | OEos, OEos => flat l1 = flat l2 /\ state p1 = state p2 /\ rest1 = rest2
  | OFinished, OFinished => flat l1 = flat l2 /\ state p1 = state p2 /\ rest1 = rest2
  | OError e1, OError e2 =>
      same_error e1 e2 /\ state p1 = state p2 /\
      exists L, nearly (flat l1) L /\ nearly (flat l2) L
  | OFault _, OFault _ => exists L, nearly (flat l1) L /\ nearly (flat l2) L
  | _, _ => False
  end.
