(* What a handler's answers do: vocabulary of the property on pausing. *)

From Coq Require Import NArith List Bool.
From Verif Require Import Bytes Http1Model.
Import ListNotations.

(* The calls that are answered with true (go on) or false (pause). *)
Definition asked (e : event) : Prop := e <> EContentLength.

(* After the calls log, the handler answered true to all calls x. *)
Definition goes_on (h : handler) (log x : list event) : Prop :=
  forall y e z, x = y ++ e :: z -> asked e -> h_ret h (log ++ y) e = true.

(* A call of resume that made the calls x and returned r: it returned Callback
   at once when a call was answered with false, and only then. *)
Definition obeys (h : handler) (log x : list event) (r : result) : Prop :=
  match r with
  | ROk (SCallback _) =>
      exists y e, x = y ++ [e] /\ goes_on h log y /\ asked e /\ h_ret h (log ++ y) e = false
  | _ => goes_on h log x
  end.
