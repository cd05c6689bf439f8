(** The texts of the files that klayout_pex/fastercap/fastercap_model_generator.py writes for FasterCap (finalize, write_fastcap), from the
    surfaces of the layout to the list file.  Which files there are is in FG_Model, floats and triangles are as in TG_Model, the texts of numbers as
    in NF_Model, files as in ST_Model.  A permittivity is the exact value of a float. *)
From Coq Require Import String Ascii.
From Verif Require Import PyBase PyLib NX_Model FG_Model TG_Model NF_Model ST_Model.
Local Close Scope Qc_scope.
Local Open Scope string_scope.
Local Open Scope list_scope.

(** Triangle.to_fastcap, fastercap_model_generator.py L297-298 *)
Definition tri_to_fastcap (t : TG_Model.tri) : string :=
  let '(p0, p1, p2) := t in (to_fastcap p0 ++ " " ++ to_fastcap p1 ++ " " ++ to_fastcap p2)%string.
Section Write.
(** x ** 2 of fastercap_model_generator.py L291 *)
Variable square : FP_Model.float -> FP_Model.float.
(** the line of a triangle, fastercap_model_generator.py L837-844; [None] is a ZeroDivisionError *)
Definition tri_line (cond_number : nat) (t : TG_Model.tri) : option string :=
  match outside_reference_point square t with
  | Some rp => Some ("T " ++ nat_str cond_number ++ " " ++ tri_to_fastcap t ++ " " ++ to_fastcap rp ++ nl)%string
  | None => None
  end.
(** the loop of fastercap_model_generator.py L836-844 *)
Fixpoint tri_lines (cond_number : nat) (data : list TG_Model.tri) : option string :=
  match data with
  | [] => Some ""
  | t :: r => match tri_line cond_number t, tri_lines cond_number r with
              | Some a, Some b => Some (a ++ b)%string
              | _, _ => None
              end
  end.
(** fastercap_model_generator.py L845-846; None and "" count as no name *)
Definition name_line (g : @geo point) : string :=
  match g_cond g with
  | None | Some "" => ""
  | Some nn => if g_rename g then ("N " ++ nat_str (g_num g) ++ " " ++ nn ++ nl)%string else ""
  end.
(** the text written by _write_fastercap_geo, fastercap_model_generator.py L835-846 *)
Definition geo_text (g : @geo point) : option string :=
  match tri_lines (g_num g) (g_tris g) with
  | Some ts => Some ("0 GEO File" ++ nl ++ ts ++ name_line g)%string
  | None => None
  end.
(** the lines of the list file, fastercap_model_generator.py L770-771 and L817-818 *)
Definition list_line (l : lline) : string :=
  match l with
  | DL fn k_out k_in => ("D " ++ fn ++ " " ++ q_text k_out ++ " " ++ q_text k_in ++ " 0 0 0 0 0 0")%string
  | CL fn k_out plus => ("C " ++ fn ++ "  " ++ q_text k_out ++ "  0 0 0" ++ if plus then " +" else "")%string
  end.
(** the text of the list file, fastercap_model_generator.py L747 and L822-823 *)
Definition list_text (k_void : Qc) (lines : list lline) : string :=
  (String.concat nl (("* k_void=" ++ q_text k_void)%string :: map list_line lines) ++ nl)%string.

Variable limit : nat.
(** the calls of _write_fastercap_geo, fastercap_model_generator.py L762-766 and L812-816, one after the other; [None] is an exception, and what
    an unfinished run leaves in the directory is not modelled *)
Fixpoint write_geos (gs : list (@geo point)) (fs : files) : option files :=
  match gs with
  | [] => Some fs
  | g :: r => if can_open limit (g_name g)
              then match geo_text g with Some t => write_geos r (dset fs (g_name g) t) | None => None end
              else None
  end.
(** finalize and write_fastcap, fastercap_model_generator.py L701-736 and L738-825, for the surfaces [dl] and [cl]; [limit] is PC_NAME_MAX (L741).
    Simplified: the lines of the list file are made before the first file is written, which only matters after an exception. *)
Definition fastercap_input (dbu : FP_Model.float) (prefix : string) (k_void : Qc) (materials : dict string Qc) (hash : string -> string)
  (dl : list diel_surface) (cl : list cond_surface) (fs : files) : option files :=
  match combine_diel (diel_data dbu dl) with
  | None => None
  | Some diel =>
      match write_fastcap prefix k_void materials (Some limit) hash diel (cond_data dbu cl) with
      | None => None
      | Some out =>
          match write_geos (map fst out) fs with
          | None => None
          | Some fs => if can_open limit (prefix ++ ".lst")%string
                       then Some (dset fs (prefix ++ ".lst")%string (list_text k_void (map snd out)))
                       else None
          end
      end
  end.
End Write.
