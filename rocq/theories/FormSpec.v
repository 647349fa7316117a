(* A program that receives forms (multipart/form-data) with the parser and
   FieldIterator.  Vocabulary of C83. *)

From Coq Require Import NArith List Bool Arith String.
From Verif Require Import Bytes Http1Model Http1Spec Http1Wire Http1Program UtilModel UtilSpec.
Import ListNotations.
Local Open Scope N_scope.
Local Open Scope list_scope.

(* What its handler collects: a section for the head and one for every part, each
   with its header fields and its data.  A header field is complete when the next
   name begins or the header fields end. *)
Record section := Section {
  s_fields : list (list byte * list byte);
  s_data : list byte
}.

Record collected := Collected {
  done : list section;           (* complete sections *)
  now : option section;          (* the one that is being received *)
  now_name : list byte;          (* the header field that is being received *)
  now_value : list byte
}.

Definition with_field (c : collected) : collected :=
  match now_value c, now c with
  | _ :: _, Some s => Collected (done c) (Some (Section (s_fields s ++ [(now_name c, now_value c)]) (s_data s))) [] []
  | _, _ => c
  end.

Definition note (c : collected) (e : fevent) : collected :=
  match e with
  | FEv EInitialFinished | FEv EMultipartBegin =>
      Collected (done c ++ match now c with Some s => [s] | None => [] end) (Some (Section [] [])) [] []
  | FByte KHeaderName b =>
      let c := with_field c in Collected (done c) (now c) (now_name c ++ [b]) (now_value c)
  | FByte KHeaderValue b => Collected (done c) (now c) (now_name c) (now_value c ++ [b])
  | FEv EHeadersFinished => with_field c
  | FByte KMultipartData b =>
      Collected (done c) (option_map (fun s => Section (s_fields s) (s_data s ++ [b])) (now c))
                (now_name c) (now_value c)
  | _ => c
  end.

Definition sections (l : list fevent) : list section :=
  let c := fold_left note l (Collected [] None [] []) in
  done c ++ match now c with Some s => [s] | None => [] end.

(* The first entry under a name. *)
Fixpoint lookup {A} (name : list byte) (l : list (list byte * A)) : option A :=
  match l with
  | [] => None
  | (n, x) :: l => if list_eq_dec N.eq_dec n name then Some x else lookup name l
  end.

(* A parameter of a header field, by FieldIterator with ';' and normalised
   names. *)
Definition parameter (name value : list byte) : option (list byte) :=
  let '(items, _, _) := field_all value 59 true in
  match lookup name items with Some (Some v) => Some v | _ => None end.

Definition field_parameter (field name : string) (s : section) : option (list byte) :=
  match lookup (bs field) (s_fields s) with
  | Some v => parameter (bs name) v
  | None => None
  end.

(* First a head, then, if the head names a boundary, a multipart body.
   Boundaries have 70 bytes at most (RFC 2046, 5.1.1). *)
Definition receive_form : program := fun l =>
  match sections l with
  | [] => Some AHead
  | [s] =>
      match field_parameter "content-type" "boundary" s with
      | Some bd => if (List.length bd <=? 70)%nat && forallb (fun b => negb (b =? 13)) bd
                   then Some (AMultipart bd) else None
      | None => None
      end
  | _ => None
  end.

(* The names and values of the form. *)
Definition form_of (l : list fevent) : list (option (list byte) * list byte) :=
  map (fun s => (field_parameter "content-disposition" "name" s, s_data s)) (tl (sections l)).

(* What the sender means: the value of the first header field of a name, and of
   the first parameter of a name in it.  Parameters are written as in C50. *)
Definition full_value (f : header) : list byte := h_value f ++ flat_map snd (h_folds f).
Definition says (fs : list header) (field name : string) (x : list byte) : Prop :=
  exists v items,
    lookup (bs field) (map (fun f => (map lower_case (h_name f), full_value f)) fs) = Some v /\
    Fields true 59 v items /\ lookup (bs name) items = Some (Some x).

(* Forms as they are written by user agents (RFC 7578, 4.2): a boundary without
   quotes; a field name in quotes, with a backslash before quotes and
   backslashes. *)
Definition boundary_byte (b : byte) : Prop := 33 <= b <= 126 /\ b <> 34 /\ b <> 59.
Definition content_type (bd : list byte) : header :=
  Header (bs "Content-Type") [32] (bs "multipart/form-data; boundary=" ++ bd) [].

Definition name_byte (b : byte) : Prop := b = 9 \/ 32 <= b <= 126 \/ 128 <= b <= 254.
Definition escape (n : list byte) : list byte :=
  flat_map (fun b => if (b =? 34) || (b =? 92) then [92; b] else [b]) n.
Definition disposition (n : list byte) : header :=
  Header (bs "Content-Disposition") [32] (bs "form-data; name=" ++ [34] ++ escape n ++ [34]) [].
Definition form_part (x : list byte * list byte) : part := plain_part ([disposition (fst x)], snd x).
