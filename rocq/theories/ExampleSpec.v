(* What the handler of the documentation should have collected from a head:
   vocabulary of C66. *)

From Coq Require Import NArith List Bool Arith String.
From Verif Require UtilSpec.
From Verif Require Import Bytes Http1Model Http1Spec Http1Wire ExampleModel.
Import ListNotations.
Local Open Scope N_scope.

(* Name and value of a field, as they are looked up: the name in lower case, the
   lines of the value joined. *)
Definition field_name (f : header) : list byte := map lower_case (h_name f).
Definition field_value (f : header) : list byte := h_value f ++ flat_map snd (h_folds f).

(* The value of the last field of that name. *)
Definition is_value (fs : list header) (name : list byte) (v : option (list byte)) : Prop :=
  match v with
  | None => forall f, In f fs -> field_name f <> name
  | Some v => exists before f after, fs = before ++ f :: after /\ field_name f = name /\ field_value f = v /\
                forall g, In g after -> field_name g <> name
  end.

Definition readable (fs : list header) : Prop := Forall (fun f => UtilSpec.Utf8 (field_value f)) fs.

Definition holds_request (req : request) (x : head) : Prop :=
  is_request x = true /\ x_method x = q_method req /\ x_url x = q_url req /\
  x_version_major x = decimal (fst (q_version req)) /\ x_version_minor x = decimal (snd (q_version req)) /\
  x_initial_finished x = true /\ x_headers_finished x = true /\
  forall name, is_value (q_headers req) name (map_get name (x_headers x)).

Definition holds_response (res : response) (x : head) : Prop :=
  is_request x = false /\ x_status x = r_reason res /\ x_status_code x = decimal (r_code res) /\
  x_version_major x = decimal (fst (r_version res)) /\ x_version_minor x = decimal (snd (r_version res)) /\
  x_initial_finished x = true /\ x_headers_finished x = true /\
  forall name, is_value (r_headers res) name (map_get name (x_headers x)).

(* The last version and the last status code reported, zero before. *)
Definition last_version (log : list event) : N * N :=
  fold_left (fun v e => match e with EVersion major minor => (major, minor) | _ => v end) log (0, 0).
Definition last_status_code (log : list event) : N :=
  fold_left (fun v e => match e with EStatusCode c => c | _ => v end) log 0.

(* What the handler has collected after any calls, also if the head is not
   complete or in error. *)
Definition holds_so_far (log : list event) (x : head) : Prop :=
  x_method x = data_of KMethod log /\ x_url x = data_of KUrl log /\ x_status x = data_of KStatus log /\
  (x_version_major x, x_version_minor x) = last_version log /\ x_status_code x = last_status_code log /\
  (is_request x = true <-> data_of KMethod log <> []) /\
  (x_initial_finished x = true <-> In EInitialFinished log) /\
  (x_headers_finished x = true <-> In EHeadersFinished log).
