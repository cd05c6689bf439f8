(** The STL files of klayout_pex/fastercap/fastercap_model_generator.py (dump_stl): one for each dielectric and each net.
    Floats and triangles as in TG_Model, the texts of numbers as in NF_Model. *)
From Coq Require Import String Ascii.
From Verif Require Import PyBase PyLib FG_Model TG_Model NF_Model.
Local Open Scope string_scope.
Local Open Scope list_scope.

(** "\n", as in fastercap_model_generator.py L985-994 *)
Definition nl : string := String (ascii_of_nat 10) "".
(** a corner, fastercap_model_generator.py L990-991 *)
Definition write_corner (p : point) : string := ("   vertex " ++ to_fastcap p ++ nl)%string.
(** the text of one triangle, fastercap_model_generator.py L987-993 *)
Definition write_facet (t : TG_Model.tri) : string :=
  let '(p0, p1, p2) := reversed t in
  ("  facet normal 0 0 0" ++ nl ++ "    outer loop" ++ nl ++ write_corner p0 ++ write_corner p1 ++ write_corner p2 ++
   "  endloop" ++ nl ++ " endfacet" ++ nl)%string.
(** the loop of fastercap_model_generator.py L986-993 *)
Fixpoint write_facets (ts : list TG_Model.tri) : string :=
  match ts with [] => "" | t :: r => (write_facet t ++ write_facets r)%string end.
(** the text of a file, fastercap_model_generator.py L985-994 *)
Definition stl_text (ts : list TG_Model.tri) : string := ("solid stl" ++ nl ++ write_facets ts ++ "endsolid stl" ++ nl)%string.

(** The files of the output directory, which has no subdirectories.  open() raises an exception for a name that is longer than [limit]
    (pathconf, fastercap_model_generator.py L741) or has a slash in it. *)
Definition files : Type := dict string string.
(** "/" in s *)
Fixpoint has_slash (s : string) : bool := match s with "" => false | String c t => Ascii.eqb c "/" || has_slash t end.
Section Dump.
Variable limit : nat.
(** whether open() of fastercap_model_generator.py L984 gives a file *)
Definition can_open (name : string) : bool := Nat.leb (String.length name) limit && negb (has_slash name).
(** _write_as_stl, fastercap_model_generator.py L977-994; [None] is the exception of open(), which leaves the files as they are *)
Definition write_as_stl (name : string) (ts : list TG_Model.tri) (fs : files) : option files :=
  match ts with
  | [] => Some fs
  | _ => if can_open name then Some (dset fs name (stl_text ts)) else None
  end.
(** the loops of fastercap_model_generator.py L967-970 and L972-975, after one another; the result is the files and whether the loop came to its end *)
Fixpoint write_each (todo : list (string * list TG_Model.tri)) (fs : files) : files * bool :=
  match todo with
  | [] => (fs, true)
  | (name, ts) :: r => match write_as_stl name ts fs with Some fs => write_each r fs | None => (fs, false) end
  end.
(** dump_stl, fastercap_model_generator.py L966-975.  [diel] and [cond] are diel_data and cond_data after finalize. *)
Definition dump_stl (prefix : string) (materials nets : list string) (diel : dict hkey (list TG_Model.tri)) (cond : dict (string * option string) (list TG_Model.tri)) (fs : files) : files * bool :=
  write_each (map (fun mn => ((prefix ++ "diel_" ++ mn ++ ".stl")%string, collect_diel diel cond mn)) materials ++
              map (fun nn => ((prefix ++ "cond_" ++ nn ++ ".stl")%string, collect_cond cond nn)) nets) fs.
End Dump.
