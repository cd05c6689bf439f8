(** The log files of runs that may stop at any moment, or run at the same time: klayout_pex/kpex_cli.py setup_logging (L745-786), cut into
    the operations of which each is atomic for the file system.  Disks, opening and renaming are those of RL_Model. *)
From Coq Require Import String.
From Verif Require Import PyBase PyLib RL_Model.
Local Open Scope string_scope.
Local Open Scope list_scope.

(** The operations; [k] is the name of the log, [now] the second in which it happens *)
Inductive op :=
| Open (k : string) (now : nat)                      (** kpex_cli.py L748, called in L776-777: logging.FileHandler in the base directory *)
| Write (k : string) (now : nat) (msg : string)      (** the handler of this log writes a message *)
| Exists (k : string)                                (** kpex_cli.py L758-763: the handler is closed; os.path.exists(new_path) *)
| Ctime (k : string)                                 (** kpex_cli.py L764: os.path.getctime(new_path), if it exists *)
| Backup (k : string) (now : nat)                    (** kpex_cli.py L768: shutil.move(new_path, backup_path), if it exists *)
| Move (k : string) (now : nat)                      (** kpex_cli.py L769: shutil.move(log_path, new_path) *)
| Reopen (k : string) (now : nat).                   (** kpex_cli.py L770: the handler in the run directory *)

(** What a process knows about one of its logs: the file that its handler has open, if new_path existed, and since when *)
Record state := State { handler : option nat; there : bool; since : nat }.
Definition locals := string -> state.
Definition start : locals := fun _ => State None false 0.
Definition update (l : locals) (k : string) (s : state) : locals := fun k' => if String.eqb k' k then s else l k'.

Section Logs.
(** as in RL_Model: kpex_cli.py L765-766 *)
Variable stamp : nat -> string.

(** One operation of a process with this base directory and run directory; [None] if Python raises FileNotFoundError *)
Definition step (base : list string) (id : string) (o : op) (s : disk * locals) : option (disk * locals) :=
  let (d, l) := s in
  let log_path k := base ++ [log_file k] in
  let new_path k := (base ++ [id]) ++ [log_file k] in
  let backup_path k := (base ++ [id]) ++ [backup_file stamp k (since (l k))] in
  let rename src dst now := match dget (names d) src with Some _ => Some (move src dst now d, l) | None => None end in
  match o with
  | Open k now => let (d1, i) := open_append (log_path k) now d in Some (d1, update l k (State (Some i) false 0))
  | Write k now msg =>
      match handler (l k) with
      | Some i => Some (on_node i (fun n => Node (text n ++ [msg]) now) d, l)
      | None => Some (d, l)
      end
  | Exists k => Some (d, update l k (State None (match dget (names d) (new_path k) with Some _ => true | None => false end) 0))
  | Ctime k =>
      if there (l k) then
        match dget (names d) (new_path k) with
        | Some i => match dget (nodes d) i with Some n => Some (d, update l k (State None true (changed n))) | None => None end
        | None => None
        end
      else Some s
  | Backup k now => if there (l k) then rename (new_path k) (backup_path k) now else Some s
  | Move k now => rename (log_path k) (new_path k) now
  | Reopen k now => let (d1, i) := open_append (new_path k) now d in Some (d1, update l k (State (Some i) false 0))
  end.

(** a message goes to both handlers *)
Definition say (tm : nat * string) : list op := [Write "kpex_plain" (fst tm) (snd tm); Write "kpex" (fst tm) (snd tm)].
(** kpex_cli.py L755-770 *)
Definition reregister_ops (now : nat) (k : string) : list op := [Exists k; Ctime k; Backup k now; Move k now; Reopen k now].
(** kpex_cli.py L772-786, then the rest of the run; a run without directory ends in L784 or by another exception *)
Definition ops (j : job) : list op :=
  [Open "kpex_plain" (opened_at j); Open "kpex" (opened_at j)] ++ flat_map say (before j) ++
  match run_id j with
  | None => []
  | Some _ => reregister_ops (moved_at j) "kpex_plain" ++ reregister_ops (moved_at j) "kpex" ++ flat_map say (after j)
  end.
Definition dir (j : job) : string := match run_id j with Some id => id | None => "" end.

(** A process that does these operations until it raises *)
Fixpoint perform (base : list string) (id : string) (l : list op) (s : disk * locals) : option (disk * locals) :=
  match l with [] => Some s | o :: t => match step base id o s with Some s1 => perform base id t s1 | None => None end end.

(** Processes at the same time: what each still has to do, or [None] after an exception *)
Record process := Process { p_base : list string; p_dir : string; todo : option (list op); mem : locals }.
Definition begin (base : list string) (j : job) : process := Process base (dir j) (Some (ops j)) start.
(** process p does its next operation *)
Definition advance (d : disk) (p : process) : disk * process :=
  match todo p with
  | Some (o :: t) =>
      match step (p_base p) (p_dir p) o (d, mem p) with
      | Some (d1, l) => (d1, Process (p_base p) (p_dir p) (Some t) l)
      | None => (d, Process (p_base p) (p_dir p) None (mem p))
      end
  | _ => (d, p)
  end.
Fixpoint replace_at {A} (l : list A) (i : nat) (x : A) : list A :=
  match l, i with [], _ => [] | _ :: t, O => x :: t | y :: t, S i => y :: replace_at t i x end.
(** a schedule names the process for each operation *)
Fixpoint schedule (turns : list nat) (s : disk * list process) : disk * list process :=
  match turns with
  | [] => s
  | i :: ts =>
      let (d, ps) := s in
      schedule ts (match nth_error ps i with Some p => let (d1, p1) := advance d p in (d1, replace_at ps i p1) | None => s end)
  end.
End Logs.
