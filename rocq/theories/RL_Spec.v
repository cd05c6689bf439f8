(** What a user expects of the log files: C84. *)
From Coq Require Import String Ascii Sorted.
From Verif Require Import PyBase PyLib RL_Model.
Local Open Scope string_scope.
Local Open Scope list_scope.

(** the lines of the file at a path *)
Definition contents (d : disk) (p : list string) : option (list string) :=
  match dget (names d) p with Some i => match dget (nodes d) i with Some n => Some (text n) | None => None end | None => None end.

(** a disk as there are: every path names a file, and no file has two names (no hard links) *)
Definition sound (d : disk) : Prop :=
  dwf (names d) /\
  (forall p i, dget (names d) p = Some i -> (i < fresh d)%nat /\ exists n, dget (nodes d) i = Some n) /\
  (forall p q i, dget (names d) p = Some i -> dget (names d) q = Some i -> p = q).

(** what one run says *)
Definition messages (j : job) : list string :=
  map snd (before j) ++ match run_id j with Some _ => map snd (after j) | None => [] end.

(** the times of a run, in the order of events *)
Definition times (j : job) : list nat := opened_at j :: map fst (before j) ++ moved_at j :: map fst (after j).
Definition ended (j : job) : nat := last (times j) 0%nat.
(** one run after the other: time does not go back, and each run starts in a later second than the one in which its predecessor ended *)
Fixpoint one_by_one (T : nat) (jobs : list job) : Prop :=
  match jobs with
  | [] => True
  | j :: js => (T < opened_at j)%nat /\ StronglySorted le (times j) /\ one_by_one (ended j) js
  end.

Section Logs.
Variable stamp : nat -> string.

(** time stamps start with a digit, and two seconds have two stamps (this leaves out the hour that is repeated in autumn) *)
Definition stamps : Prop :=
  (forall t, exists c s, stamp t = String c s /\ (48 <= nat_of_ascii c <= 57)%nat) /\ (forall t u, stamp t = stamp u -> t = u).

(** every run in a process of its own *)
Fixpoint run_all (base : list string) (jobs : list job) (d : disk) : disk :=
  match jobs with [] => d | j :: js => run_all base js (fst (run_job stamp base j (d, []))) end.

(** the log files of a kind ("kpex_plain" or "kpex") below a base directory: not yet moved, of a run directory, backup *)
Inductive log_path (base : list string) (kind : string) : list string -> Prop :=
| preliminary : log_path base kind (base ++ [(kind ++ ".log")%string])
| in_run_dir id : log_path base kind (base ++ [id; (kind ++ ".log")%string])
| backup id t : log_path base kind (base ++ [id; (kind ++ "_" ++ stamp t ++ ".bak.log")%string]).

(** some log of that kind holds the messages of the run, one after the other *)
Definition kept (base : list string) (kind : string) (d : disk) (j : job) : Prop :=
  exists p x y, log_path base kind p /\ contents d p = Some (x ++ messages j ++ y).
Definition kinds : list string := ["kpex_plain"; "kpex"].
(** no logs yet *)
Definition no_logs (base : list string) (d : disk) : Prop := forall kind p, In kind kinds -> log_path base kind p -> contents d p = None.
End Logs.
