(* Samples for C66: the program of /repo/examples/http1_head_parsing.md:208-222. *)

From Coq Require Import NArith List Bool Arith String Lia.
From Verif Require UtilSpec UtilFacts.
From Verif Require Import Bytes Http1Model Http1Spec Http1Protocol Http1Wire ExampleModel ExampleSpec ExampleFacts.
Import ListNotations.
Local Open Scope N_scope.
Local Open Scope list_scope.

Definition doc_stream : list byte :=
  bs "GET /resource?query HTTP/1.1" ++ crlf ++
  bs "Host: github.com" ++ crlf ++
  bs "Connection: close" ++ crlf ++
  bs "Accept-Encoding: gzip, deflate, sdch, br" ++ crlf ++
  bs "Accept-Language: en-US,en;q=0.8" ++ crlf ++ crlf.

Definition doc_request : request :=
  Request [] (bs "GET") (bs "/resource?query") (bs "1", bs "1")
    [Header (bs "Host") [32] (bs "github.com") [];
     Header (bs "Connection") [32] (bs "close") [];
     Header (bs "Accept-Encoding") [32] (bs "gzip, deflate, sdch, br") [];
     Header (bs "Accept-Language") [32] (bs "en-US,en;q=0.8") []].

Lemma doc_case :
  wf_request doc_request /\ readable (q_headers doc_request) /\
  render_request doc_request = doc_stream /\
  (let '(_, log, _, _) := feed yes new [doc_stream] in
   match on_events head_new log with
   | Some x => map (fun n => map_get (bs n) (x_headers x))
                   ["host"; "connection"; "accept-encoding"; "accept-language"; "Host"]%string =
               [Some (bs "github.com"); Some (bs "close"); Some (bs "gzip, deflate, sdch, br");
                Some (bs "en-US,en;q=0.8"); None]
   | None => False
   end) /\
  (let '(_, log, _, _) := feed yes new [bs "PUT / HTTP/1.1" ++ crlf ++ bs "A: 1" ++ crlf ++ bs "a";
                                        bs ": 2" ++ crlf ++ [9] ++ bs "3" ++ crlf ++ crlf] in
   match on_events head_new log with
   | Some x => map_get (bs "a") (x_headers x) = Some (bs "23") /\ x_method x = bs "PUT"
   | None => False
   end).
Proof.
  split.
  { unfold wf_request, wf_version, wf_header, blank, padding, digit, starts_visible; cbn [doc_request q_blank q_method q_url q_version q_headers].
    repeat match goal with
    | |- _ /\ _ => split
    | |- Forall _ [] => constructor
    | |- Forall _ (_ :: _) => constructor
    | |- Forall _ (bs _) => vm_compute
    | |- _ <> _ => discriminate
    | |- _ = _ => vm_compute; reflexivity
    | |- _ <= _ => vm_compute; discriminate
    | |- (_ <= _)%nat => cbn; lia
    | |- _ \/ _ => now left
    end. all: vm_compute; repeat split; repeat constructor; try discriminate. }
  split.
  { apply all_utf8_iff. vm_compute. reflexivity. }
  split; [vm_compute; reflexivity|]. split; vm_compute; repeat split.
Qed.
