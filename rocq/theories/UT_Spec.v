(** Specifications for patterns, boolean arguments, category paths and category trees. *)
From Coq Require Import String Ascii.
From Verif Require Import PyBase PyLib PyStr UT_Model.
Local Open Scope string_scope.

(** the pattern has a component that reads [w], up to surrounding white space and letter case *)
Definition names (pattern w : string) : Prop := exists c, In c (split_on "," pattern) /\ strip (casefold c) = w.
(** the two strings differ at most in the case of ASCII letters *)
Fixpoint same_letters (a b : string) : Prop :=
  match a, b with
  | EmptyString, EmptyString => True
  | String x r, String y t =>
      (x = y \/ (exists n, (65 <= n <= 90)%nat /\ (x = ascii_of_nat n /\ y = ascii_of_nat (n + 32) \/ y = ascii_of_nat n /\ x = ascii_of_nat (n + 32)))) /\ same_letters r t
  | _, _ => False
  end.
Definition has_upper (s : string) : Prop := casefold s <> s.

(** [e] is a way to write the name [w] in a category path; [q]: inside apostrophes *)
Definition special (c : ascii) : Prop := In c ["."; "\"; "'"]%char.
Inductive writes : bool -> string -> string -> Prop :=
  | w_nil : writes false "" ""
  | w_plain q c e w : ~ special c -> writes q e w -> writes q (String c e) (String c w)
  | w_escaped q c e w : special c -> writes q e w -> writes q (String "\" (String c e)) (String c w)
  | w_quoted_dot e w : writes true e w -> writes true (String "." e) (String "." w)
  | w_quote q e w : writes (negb q) e w -> writes q (String "'" e) w.

(** following a path of names down from the top categories *)
Fixpoint follows (cs : list cat) (p : list string) : Prop :=
  match p with
  | [] => True
  | c :: r => match find (fun x => eqb (cat_name x) c) cs with
              | Some (Cat _ subs) => match r, subs with [], _ => True | _, Some s => follows s r | _, None => False end
              | None => False
              end
  end.
(** [b] is [a] with categories added at the ends of lists *)
Inductive extends : list cat -> list cat -> Prop :=
  | ext_end more : extends [] more
  | ext_same n s t a b : extends_opt s t -> extends a b -> extends (Cat n s :: a) (Cat n t :: b)
with extends_opt : option (list cat) -> option (list cat) -> Prop :=
  | ext_none : extends_opt None None
  | ext_some a b : extends a b -> extends_opt (Some a) (Some b).
(** every category has a place for subcategories *)
Inductive complete : list cat -> Prop :=
  | complete_nil : complete []
  | complete_cons n s cs : complete s -> complete cs -> complete (Cat n (Some s) :: cs).

Definition kept pattern choices := match parse_choice pattern with Some p => Some (choice_filter p choices) | None => None end.
(** every name can be written: with backslashes, or in apostrophes *)
Definition is_special (c : ascii) : bool := eqb c dot || eqb c backslash || eqb c apos.
Fixpoint with_backslashes (w : string) : string :=
  match w with EmptyString => "" | String c r => if is_special c then String "\" (String c (with_backslashes r)) else String c (with_backslashes r) end.
Fixpoint quoted_body (w : string) : string :=
  match w with EmptyString => "'" | String c r => if eqb c backslash || eqb c apos then String "\" (String c (quoted_body r)) else String c (quoted_body r) end.
Definition no_apostrophe (w : string) : Prop := all_chars (fun c => negb (eqb c "'"%char)) w = true.
