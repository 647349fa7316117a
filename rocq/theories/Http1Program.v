(* A program at work on a connection.  Vocabulary of C78; the readers of single
   messages are those of Http1Reader.v and Http1Cuts.v. *)

From Coq Require Import NArith List Bool Arith.
From Verif Require Import Bytes Http1Model Http1Spec Http1Wire Http1Reader Http1Cuts Http1Conn.
Import ListNotations.
Local Open Scope N_scope.

(* What the program expects next on the connection, and how it prepares the
   parser for it. *)
Inductive kind :=
| AHead
| AChunked
| AMultipart (boundary : list byte)
| AUrlEncoded (length : N).

Definition ready (k : kind) (p : parser) : parser :=
  match k with
  | AHead => init_head p
  | AChunked => init_chunked p
  | AMultipart bd => set_boundary (init_multipart p) bd
  | AUrlEncoded n => set_length (init_url_encoded p) n
  end.

(* It decides what to expect by what it has been told so far (for example, by
   the header fields of the last head), or to stop. *)
Definition program := list fevent -> option kind.

(* The boundaries it uses. *)
Definition good_boundaries (next : program) : Prop :=
  forall l bd, next l = Some (AMultipart bd) -> ~ In 13 bd /\ N.of_nat (List.length bd) <= 2 ^ 14.

(* It reads at most n messages, with one parser and one handler, from the pieces
   segs: what is left of them after a message is for the next one. *)
Fixpoint work (n : nat) (h : handler) (next : program) (p : parser) (log : list event) (segs : list (list byte))
  : parser * list event * list (list byte) * ending :=
  match n with
  | O => (p, log, segs, OFinished)
  | S n' =>
      match next (flat log) with
      | None => (p, log, segs, OFinished)
      | Some k =>
          let '(p', log', segs', o) := turn (calls segs) h (ready k p) log segs in
          match o with
          | OFinished => work n' h next p' log' segs'
          | _ => (p', log', segs', o)
          end
      end
  end.

(* The pieces without their first n bytes. *)
Fixpoint left_of (n : nat) (segs : list (list byte)) : list (list byte) :=
  match segs with
  | [] => []
  | seg :: more => if (n <? List.length seg)%nat then skipn n seg :: more else left_of (n - List.length seg) more
  end.

(* What is to be made of the pieces: message by message.  clen: the answers to
   content_length(); l: what was seen before. *)
Definition read_next (clen : list fevent -> option N) (l : list fevent) (k : kind) (segs : list (list byte))
  : list fevent * reading :=
  match k with
  | AHead => read_cut_head segs
  | AChunked => read_chunked (List.concat segs)
  | AMultipart bd => read_multipart bd (fun l' => clen (l ++ l')) (List.concat segs)
  | AUrlEncoded n => read_url_encoded n (List.concat segs)
  end.

Fixpoint read_all (n : nat) (clen : list fevent -> option N) (next : program) (l : list fevent)
         (segs : list (list byte)) : list fevent * reading :=
  match n with
  | O => (l, Complete (List.concat segs))
  | S n' =>
      match next l with
      | None => (l, Complete (List.concat segs))
      | Some k =>
          match read_next clen l k segs with
          | (x, Complete rest) =>
              read_all n' clen next (l ++ x) (left_of (List.length (List.concat segs) - List.length rest) segs)
          | (x, r) => (l ++ x, r)
          end
      end
  end.

(* The same of a stream of bytes that is not cut. *)
Fixpoint read_stream (n : nat) (clen : list fevent -> option N) (next : program) (l : list fevent)
         (s : list byte) : list fevent * reading :=
  match n with
  | O => (l, Complete s)
  | S n' =>
      match next l with
      | None => (l, Complete s)
      | Some k =>
          match (match k with
                 | AHead => read_head s
                 | AChunked => read_chunked s
                 | AMultipart bd => read_multipart bd (fun l' => clen (l ++ l')) s
                 | AUrlEncoded n => read_url_encoded n s
                 end) with
          | (x, Complete rest) => read_stream n' clen next (l ++ x) rest
          | (x, r) => (l ++ x, r)
          end
      end
  end.

(* No head in the stream begins with H, except with (a part of) "HTTP/" (cf.
   C08). *)
Fixpoint plain_heads (n : nat) (clen : list fevent -> option N) (next : program) (l : list fevent)
         (s : list byte) : Prop :=
  match n with
  | O => True
  | S n' =>
      match next l with
      | None => True
      | Some k =>
          (k = AHead -> hok (strip s) = true) /\
          match (match k with
                 | AHead => read_head s
                 | AChunked => read_chunked s
                 | AMultipart bd => read_multipart bd (fun l' => clen (l ++ l')) s
                 | AUrlEncoded n => read_url_encoded n s
                 end) with
          | (x, Complete rest) => plain_heads n' clen next (l ++ x) rest
          | _ => True
          end
      end
  end.

(* The program ends as the reading says: with the messages complete, waiting for
   more, with the error, or in the panic, having been told the same; on an error
   or panic, last bytes of the item in question may be missing. *)
Definition goes (r : list fevent * reading) (f : parser * list event * list (list byte) * ending) : Prop :=
  let '(p', log, segs', o) := f in
  match snd r with
  | Complete rest => o = OFinished /\ flat log = fst r /\ List.concat segs' = rest
  | Partial at_ => o = OEos /\ flat log = fst r /\ segs' = [] /\ state p' = at_
  | Wrong e => (exists e', o = OError e' /\ same_kind e' e) /\ nearly (flat log) (fst r) /\ state p' = StDead
  | Crash => (exists x, o = OFault x) /\ nearly (flat log) (fst r)
  end.
