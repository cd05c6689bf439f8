(** Model of the second half of klayout_pex/fastercap/fastercap_model_generator.py: combining
    dielectric surfaces (finalize L720-736) and writing the FasterCap files (write_fastcap
    L738-825, _write_fastercap_geo L827-846).

    Points are of any type.  The rendering of numbers and of triangles into text is left to
    parameters; the dictionaries are association lists in insertion order.  [hash] is the
    base64 md5 of the net name (L806-807).  Strings are byte strings, len() counts bytes. *)
From Coq Require Import String.
From Verif Require Import PyBase PyLib NX_Model.
Local Open Scope string_scope.
Local Open Scope list_scope.

(** class HDielKey, L210-223: (outside, inside) *)
Notation hkey := (option string * option string)%type.

Section Files.
Context {pt : Type}.

(** class Triangle, L276-283 *)
Definition tri := (pt * pt * pt)%type.
Definition tri_rev (t : tri) : tri := let '(a, b, c) := t in (c, b, a).

Definition krev (k : hkey) : hkey := (snd k, fst k).

(** finalize, L720-736; [None] is a KeyError *)
Definition dk_keys (d : dict hkey (list tri)) : dict hkey (list tri) :=
  fold_left (fun dk k => if dmem dk (krev k) then dk else dset dk k []) (dkeys d) [].
Definition dk_add (dk : option (dict hkey (list tri))) (e : hkey * list tri) : option (dict hkey (list tri)) :=
  match dk with
  | None => None
  | Some dk =>
      match dget dk (krev (fst e)) with
      | Some l => Some (dset dk (krev (fst e)) (l ++ map tri_rev (snd e)))
      | None => match dget dk (fst e) with
                | Some l => Some (dset dk (fst e) (l ++ snd e))
                | None => None
                end
      end
  end.
Definition combine_diel (d : dict hkey (list tri)) : option (dict hkey (list tri)) :=
  fold_left dk_add d (Some (dk_keys d)).

(** ** write_fastcap *)
(** the arguments of _write_fastercap_geo *)
Record geo := Geo { g_name : string; g_tris : list tri; g_num : nat; g_cond : option string; g_rename : bool }.
(** the lines appended to the list file, L771 and L818 *)
Inductive lline :=
  | DL (fn : string) (k_out k_in : Qc)
  | CL (fn : string) (k_out : Qc) (plus : bool).

Variables (prefix : string) (k_void : Qc) (materials : dict string Qc) (max_len : option nat) (hash : string -> string).

(** "self.materials[o] if o else self.k_void": also "" counts as void *)
Definition k_of (o : option string) : option Qc :=
  match o with
  | None | Some "" => Some k_void
  | Some m => dget materials m
  end.
(** "o or '(void)'" *)
Definition show (o : option string) : string := match o with None | Some "" => "(void)" | Some m => m end.
Definition nonempty {A} (l : list A) : bool := match l with [] => false | _ => true end.

(** L749-771; [n] is file_num before the loop *)
Fixpoint write_diel (n : nat) (d : dict hkey (list tri)) : option (list (geo * lline)) :=
  match d with
  | [] => Some []
  | (k, data) :: r =>
      if nonempty data
      then match k_of (fst k), k_of (snd k) with
           | Some ko, Some ki =>
               let fn := (prefix ++ nat_str (S n) ++ "_outside=" ++ show (fst k) ++ "_inside=" ++ show (snd k) ++ ".geo")%string in
               match write_diel (S n) r with
               | Some l => Some ((Geo fn data (S n) None false, DL fn ko ki) :: l)
               | None => None
               end
           | _, _ => None
           end
      else write_diel n r
  end.

(** L786-790: defaultdict(list) *)
Definition group_add (g : dict string (list (option string * list tri))) (e : (string * option string) * list tri)
  : dict string (list (option string * list tri)) :=
  if nonempty (snd e)
  then dset g (fst (fst e)) ((match dget g (fst (fst e)) with Some l => l | None => [] end) ++ [(snd (fst e), snd e)])
  else g.
Definition group (d : dict (string * option string) (list tri)) : dict string (list (option string * list tri)) :=
  fold_left group_add d [].

(** s[0:e] *)
Fixpoint take (n : nat) (s : string) : string :=
  match n, s with O, _ | _, EmptyString => "" | S k, String c t => String c (take k t) end.
Definition slice_to (s : string) (e : Z) : string :=
  if (e <? 0)%Z then take (Z.to_nat (Z.of_nat (String.length s) + e)) s else take (Z.to_nat e) s.

(** L801-810 *)
Definition cond_name (n : nat) (outside nn : string) : string :=
  let fn := (prefix ++ nat_str n ++ "_outside=" ++ outside ++ "_net=" ++ nn ++ ".geo")%string in
  match max_len with
  | None => fn
  | Some m =>
      if Nat.ltb m (String.length fn)
      then let h := hash nn in
           let remaining := String.length (prefix ++ "_" ++ nat_str n ++ "_outside=" ++ outside ++ "_net=.geo")%string in
           let short := (slice_to nn (Z.of_nat m - Z.of_nat remaining - Z.of_nat (String.length h) - 1) ++ "_" ++ h)%string in
           (prefix ++ nat_str n ++ "_outside=" ++ outside ++ "_net=" ++ short ++ ".geo")%string
      else fn
  end.
(** L797-818: the files of one net; "idx == last_cond_index" is "no more entries" *)
Fixpoint write_net (nn : string) (cond_num n : nat) (l : list (option string * list tri)) : option (list (geo * lline)) :=
  match l with
  | [] => Some []
  | (outside, data) :: r =>
      match k_of outside with
      | Some ko =>
          let fn := cond_name (S n) (show outside) nn in
          let last := negb (nonempty r) in
          match write_net nn cond_num (S n) r with
          | Some t => Some ((Geo fn data cond_num (Some nn) last, CL fn ko (negb last)) :: t)
          | None => None
          end
      | None => None
      end
  end.
(** L794-818 *)
Fixpoint write_nets (cond_num n : nat) (g : dict string (list (option string * list tri))) : option (list (geo * lline)) :=
  match g with
  | [] => Some []
  | (nn, l) :: r =>
      match write_net nn (S cond_num) n l with
      | Some a => match write_nets (S cond_num) (n + List.length l) r with
                  | Some b => Some (a ++ b)
                  | None => None
                  end
      | None => None
      end
  end.
(** write_fastcap: the geometry files with their lines in the list file, in order *)
Definition write_fastcap (diel : dict hkey (list tri)) (cond : dict (string * option string) (list tri)) : option (list (geo * lline)) :=
  match write_diel 0 diel with
  | Some a => match write_nets (List.length a) (List.length a) (group cond) with
              | Some b => Some (a ++ b)
              | None => None
              end
  | None => None
  end.
(** the text of the files is in GF_Model.v *)
End Files.

(** _collect_diel_tris L1030-1043 and _collect_cond_tris L1045-1050: the surface of one body *)
Section Collect.
Context {pt : Type}.
Definition collect_diel (diel : dict hkey (list (@tri pt))) (cond : dict (string * option string) (list (@tri pt))) (m : string) : list (@tri pt) :=
  flat_map (fun e => if eqb (fst (fst e)) (Some m) then snd e
                     else if eqb (snd (fst e)) (Some m) then map tri_rev (snd e) else []) diel ++
  flat_map (fun e => if eqb (snd (fst e)) (Some m) then snd e else []) cond.
Definition collect_cond (cond : dict (string * option string) (list (@tri pt))) (n : string) : list (@tri pt) :=
  flat_map (fun e => if eqb (fst (fst e)) n then map tri_rev (snd e) else []) cond.
End Collect.
