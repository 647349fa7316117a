(* Specification: the operations on an HTTP/2 parser and what a caller sees of
   them. *)

From Coq Require Import NArith List Bool.
From Verif Require Import Bytes Http2Model.
Import ListNotations.
Local Open Scope N_scope.

(* The public operations on a parser that change it. *)
Inductive op :=
| OpReset
| OpResume (s : list byte).

(* Performing one: parser, calls made to the handler, and what resume returns. *)
Definition perform (chk : bool) (h : handler) (p : parser) (log : list event) (o : op)
  : parser * list event * option result :=
  match o with
  | OpReset => (reset p, log, None)
  | OpResume s => let '(p', log', r) := resume chk h p log s in (p', log', Some r)
  end.

(* What is seen of byte_count(): its value after a reset, how far it has
   advanced during a resume. *)
Definition counted (o : op) (p p' : parser) : N :=
  match o with
  | OpReset => byte_count p'
  | OpResume _ => byte_count p' - byte_count p
  end.

(* What a caller sees of a sequence of operations: after each of them the
   returned value, all calls made to the handler so far, state() and
   byte_count(). *)
Fixpoint observe (chk : bool) (h : handler) (p : parser) (log : list event) (ops : list op)
  : list (option result * list event * pstate * N) :=
  match ops with
  | [] => []
  | o :: ops' =>
      let '(p', log', r) := perform chk h p log o in
      (r, log', state p', counted o p p') :: observe chk h p' log' ops'
  end.
