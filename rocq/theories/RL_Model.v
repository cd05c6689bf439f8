(** The log files of a run: klayout_pex/kpex_cli.py setup_logging (L745-786), klayout_pex/log/logger.py (L85-102). *)
From Coq Require Import String.
From Verif Require Import PyBase PyLib.
Local Open Scope string_scope.
Local Open Scope list_scope.

(** A file: its lines, and the second its contents or its name changed last (what os.path.getctime reports on Linux). *)
Record node := Node { text : list string; changed : nat }.
(** Paths are absolute lists of components. A path names a file by number, so that an open file keeps being written when it is renamed. *)
Record disk := Disk { names : dict (list string) nat; nodes : dict nat node; fresh : nat }.

Definition on_node (i : nat) (f : node -> node) (d : disk) : disk :=
  match dget (nodes d) i with Some n => Disk (names d) (dset (nodes d) i (f n)) (fresh d) | None => d end.

(** logging.FileHandler(path): opens for appending; L748. Simplified: its directory exists. *)
Definition open_append (p : list string) (now : nat) (d : disk) : disk * nat :=
  match dget (names d) p with
  | Some i => (d, i)
  | None => (Disk (dset (names d) p (fresh d)) (dset (nodes d) (fresh d) (Node [] now)) (S (fresh d)), fresh d)
  end.

(** shutil.move of a file within one file system: rename, replacing the target *)
Definition move (src dst : list string) (now : nat) (d : disk) : disk :=
  match dget (names d) src with
  | Some i => on_node i (fun n => Node (text n) now) (Disk (dset (dremove (names d) src) dst i) (nodes d) (fresh d))
  | None => d
  end.

(** logger.py: one message goes to every registered handler. Simplified: both logs get the bare message, the time in front of it in kpex.log
    is left out, and so are the console handlers and the level filter. *)
Definition log1 (handlers : list nat) (tm : nat * string) (d : disk) : disk :=
  fold_left (fun d i => on_node i (fun n => Node (text n ++ [snd tm]) (fst tm)) d) handlers d.
Definition log_all (handlers : list nat) (msgs : list (nat * string)) (d : disk) : disk :=
  fold_left (fun d tm => log1 handlers tm d) msgs d.

(** logger.py L95-102, removeHandler. Simplified: a handler is the number of its file, so with two handlers on one file it does not matter
    which of them goes. *)
Fixpoint remove_handler (i : nat) (hs : list nat) : list nat :=
  match hs with [] => [] | j :: hs => if Nat.eqb i j then hs else j :: remove_handler i hs end.

Section Logs.
(** datetime.fromtimestamp(ctime).strftime('%Y-%m-%d_%H-%M-%S') (L765-766) *)
Variable stamp : nat -> string.

Definition log_file (name : string) : string := name ++ ".log".
(** L767: new_path[:-4] takes ".log" away *)
Definition backup_file (name : string) (t : nat) : string := name ++ "_" ++ stamp t ++ ".bak.log".

(** L755-770 *)
Definition reregister (base run_dir : list string) (name : string) (handler now : nat) (s : disk * list nat) : disk * list nat :=
  let (d, hs) := s in
  let hs := remove_handler handler hs in
  let log_path := base ++ [log_file name] in
  let new_path := run_dir ++ [log_file name] in
  let d := match dget (names d) new_path with
           | Some i =>
               match dget (nodes d) i with
               | Some n => move new_path (run_dir ++ [backup_file name (changed n)]) now d
               | None => d
               end
           | None => d
           end in
  let d := move log_path new_path now d in
  let (d, i) := open_append new_path now d in
  (d, hs ++ [i]).

(** One run: the second in which it starts to log; what is logged, with the second of each message, up to the end of the validation of the arguments; the name of the run
    directory ([None]: the validation ends before there is one, by exit (L784) or by an exception that is not caught); the second in which the
    logs are moved; what is logged afterwards. *)
Record job := Job { opened_at : nat; before : list (nat * string); run_id : option string; moved_at : nat; after : list (nat * string) }.

(** L772-786, then the rest of the run *)
Definition run_job (base : list string) (j : job) (s : disk * list nat) : disk * list nat :=
  let (d, hs) := s in
  let (d, plain) := open_append (base ++ [log_file "kpex_plain"]) (opened_at j) d in
  let (d, formatted) := open_append (base ++ [log_file "kpex"]) (opened_at j) d in
  let hs := hs ++ [plain; formatted] in
  let d := log_all hs (before j) d in
  match run_id j with
  | None => (d, hs)
  | Some id =>
      let run_dir := base ++ [id] in
      let (d, hs) := reregister base run_dir "kpex_plain" plain (moved_at j) (d, hs) in
      let (d, hs) := reregister base run_dir "kpex" formatted (moved_at j) (d, hs) in
      (log_all hs (after j) d, hs)
  end.
End Logs.
