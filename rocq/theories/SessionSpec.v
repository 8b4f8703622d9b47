(** * Words used in the statements about the sessions of a Dyson job *)
Require Import List String Ascii.
Require Import Verif.BareG Verif.Session.
Import ListNotations.

(** Weights and parameters are written whenever a version ends well. *)
Definition complete (e : event) : Prop := match e with Done f | Cut f => 2 <= f | _ => True end.

(** The process goes on. *)
Definition stays (e : event) : Prop := match e with Cut _ | Restart => False | _ => True end.

(** A version that had its self-energy and polarization *)
Definition computed (e : event) : nat := match e with Done _ | Touches => 1 | _ => 0 end.

Definition fails (e : event) : Prop := e = Touches \/ e = NoStatistics.
Definition spaces (n : nat) : string := string_of_list_ascii (repeat " "%char n).

(** What the annealing sees of a version: success, failure at the denominator, or nothing *)
Definition seen (e : event) : list outcome :=
  match e with Done _ => [Success] | Touches => [TouchZero] | _ => [] end.
