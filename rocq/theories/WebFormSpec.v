(* A program that receives forms (application/x-www-form-urlencoded) with the
   parser, in the body of a request or, with QueryIterator, in its URL.
   Vocabulary of C84. *)

From Coq Require Import NArith List Bool Arith String.
From Verif Require Import Bytes Http1Model Http1Spec Http1Wire Http1Program UtilModel FormSpec.
Import ListNotations.
Local Open Scope N_scope.
Local Open Scope list_scope.

(* ------------------------------------------------------------------ *)
(* The receiver                                                         *)
(* ------------------------------------------------------------------ *)

Definition pair := (list byte * list byte)%type.

(* The number in a header field. *)
Definition number (v : list byte) : option N :=
  match v with
  | [] => None
  | _ => if forallb (fun b => (48 <=? b) && (b <=? 57)) v then Some (decimal v) else None
  end.

(* First a head, then, if the head tells its length, a URL-encoded body. *)
Definition receive_post : program := fun l =>
  match sections l with
  | [] => Some AHead
  | [s] =>
      match lookup (bs "content-length") (s_fields s) with
      | Some v => option_map AUrlEncoded (number v)
      | None => None
      end
  | _ => None
  end.

(* Only a head. *)
Definition receive_get : program := fun l =>
  match sections l with
  | [] => Some AHead
  | _ => None
  end.

(* The pairs that the handler collects, the last one first. *)
Definition note_pair (ps : list pair) (e : fevent) : list pair :=
  match e, ps with
  | FEv EUrlBegin, _ => ([], []) :: ps
  | FByte KUrlName b, (n, v) :: ps => (n ++ [b], v) :: ps
  | FByte KUrlValue b, (n, v) :: ps => (n, v ++ [b]) :: ps
  | _, _ => ps
  end.
Definition body_pairs (l : list fevent) : list pair := rev (fold_left note_pair l []).

(* What follows the first '?' of a text. *)
Fixpoint query_of (t : list byte) : list byte :=
  match t with
  | [] => []
  | b :: t => if b =? 63 then t else query_of t
  end.

(* The pairs in the URL. *)
Definition url_of (l : list fevent) : list byte :=
  flat_map (fun e => match e with FByte KUrl b => [b] | _ => [] end) l.
Definition url_pairs (l : list fevent) : list pair :=
  let '(items, _, _) := query_all (query_of (url_of l)) in
  map (fun x => (fst x, match snd x with Some v => v | None => [] end)) items.

(* ------------------------------------------------------------------ *)
(* The sender                                                           *)
(* ------------------------------------------------------------------ *)

(* Forms as they are written by user agents (URL Standard, 5.2): letters, digits
   and "*-._" stand for themselves, a space is written as a plus sign, any other
   byte as an escape. *)
Definition itself (b : byte) : bool :=
  (48 <=? b) && (b <=? 57) || (65 <=? b) && (b <=? 90) || (97 <=? b) && (b <=? 122) ||
  (b =? 42) || (b =? 45) || (b =? 46) || (b =? 95).
Definition hex_digit (n : N) : byte := if n <? 10 then 48 + n else 55 + n.
Definition url_byte (b : byte) : list byte :=
  if b =? 32 then [43] else if itself b then [b] else [37; hex_digit (b / 16); hex_digit (b mod 16)].
Definition url_text (t : list byte) : list byte := flat_map url_byte t.
Definition pair_text (x : pair) : list byte := url_text (fst x) ++ [61] ++ url_text (snd x).
Fixpoint form_text (xs : list pair) : list byte :=
  match xs with
  | [] => []
  | [x] => pair_text x
  | x :: xs => pair_text x ++ [38] ++ form_text xs
  end.

(* The value of the first header field of a name. *)
Definition field_says (fs : list header) (field : string) (v : list byte) : Prop :=
  lookup (bs field) (map (fun f => (map lower_case (h_name f), full_value f)) fs) = Some v.

(* The pairs of a query up to the first one with an escape in its name; none if
   the query begins with an empty name. *)
Definition plain_byte (b : byte) : bool := (b =? 32) || itself b.
Definition plain (x : pair) : bool := forallb plain_byte (fst x).
Fixpoint before_escape (xs : list pair) : list pair :=
  match xs with
  | [] => []
  | x :: xs => if plain x then x :: before_escape xs else []
  end.
Definition query_gives (xs : list pair) : list pair :=
  match xs with
  | ([], _) :: _ => []
  | _ => before_escape xs
  end.
