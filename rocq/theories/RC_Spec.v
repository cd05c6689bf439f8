(** What a user expects of the logs of runs that are interrupted, or that run at the same time: C99, C100. *)
From Coq Require Import String.
From Verif Require Import PyBase PyLib RL_Model RL_Spec RC_Model.
Local Open Scope string_scope.
Local Open Scope list_scope.

(** the messages that operations have written to a log *)
Definition written (k : string) (l : list op) : list string :=
  flat_map (fun o => match o with Write k' _ msg => if String.eqb k' k then [msg] else [] | _ => [] end) l.

Section Logs.
Variable stamp : nat -> string.
(** runs one after the other, each in a process of its own, each killed after so many operations; [None] if one of them raises *)
Fixpoint crash_all (base : list string) (runs : list (job * nat)) (d : disk) : option disk :=
  match runs with
  | [] => Some d
  | (j, n) :: rs =>
      match perform stamp base (dir j) (firstn n (ops j)) (d, start) with Some (d1, _) => crash_all base rs d1 | None => None end
  end.
(** some log of that kind holds these messages, one after the other *)
Definition holds (base : list string) (kind : string) (d : disk) (msgs : list string) : Prop :=
  exists p x y, log_path stamp base kind p /\ contents d p = Some (x ++ msgs ++ y).
End Logs.

(** directories of which none contains the other *)
Definition apart (a b : list string) : Prop := (forall x, b <> a ++ x) /\ (forall x, a <> b ++ x).
(** how many turns a schedule gives to a process *)
Definition turns_of (i : nat) (turns : list nat) : nat := List.length (filter (Nat.eqb i) turns).
