(** Python's re.match for the patterns used in the repository: a backtracking matcher that lists all
    ways to match in the order in which Python tries them; re.match takes the first.  Characters are
    bytes, [\w] and [\d] their ASCII parts. *)
From Coq Require Import String Ascii ZArith Lia.
From Verif Require Import PyBase PyLib PyStr.
Local Open Scope string_scope.

(** [\w] *)
Definition isword (c : ascii) : bool :=
  let n := nat_of_ascii c in
  isdigit c || (Nat.leb 65 n && Nat.leb n 90) || (Nat.leb 97 n && Nat.leb n 122) || Nat.eqb n 95.
(** [.] *)
Definition notnl (c : ascii) : bool := negb (Ascii.eqb c nl).

Inductive re :=
| Lit (p : string)            (** literal text *)
| One (P : ascii -> bool)     (** one character of P *)
| Star (P : ascii -> bool)    (** P*  *)
| Lazy (P : ascii -> bool)    (** P*? *)
| Plus (P : ascii -> bool)    (** P+  *)
| Seq (a b : re)
| Alt (a b : re)              (** a|b *)
| Opt (a : re)                (** a?  *)
| Grp (n : string) (a : re)   (** (?P<n>a) *)
| End.                        (** $: the end, or the newline before it *)

(** splits of [s] into a text of characters in [P] and a rest, the longest text first *)
Fixpoint longest (P : ascii -> bool) (s : string) : list (string * string) :=
  match s with
  | "" => [("", "")]
  | String c t => ((if P c then map (fun '(x, u) => (String c x, u)) (longest P t) else []) ++ [("", s)])%list
  end.

(** all matches at the start of [s]: text, groups, rest *)
Fixpoint rm (r : re) (s : string) : list (string * list (string * string) * string) :=
  match r with
  | Lit p => match drop_prefix p s with Some u => [(p, [], u)] | None => [] end
  | One P => match s with String c u => if P c then [(String c "", [], u)] else [] | "" => [] end
  | Star P => map (fun '(x, u) => (x, [], u)) (longest P s)
  | Lazy P => map (fun '(x, u) => (x, [], u)) (rev (longest P s))
  | Plus P => map (fun '(x, u) => (x, [], u)) (filter (fun '(x, _) => negb (String.eqb x "")) (longest P s))
  | Seq a b => flat_map (fun '(x, g, t) => map (fun '(y, h, u) => (x ++ y, (g ++ h)%list, u)) (rm b t)) (rm a s)
  | Alt a b => (rm a s ++ rm b s)%list
  | Opt a => (rm a s ++ [("", [], s)])%list
  | Grp n a => map (fun '(x, g, u) => (x, (g ++ [(n, x)])%list, u)) (rm a s)
  | End => if String.eqb s "" || String.eqb s (String nl "") then [("", [], s)] else []
  end.

(** re.match(r, s): the groups *)
Definition re_match (r : re) (s : string) : option (dict string string) :=
  match rm r s with (_, g, _) :: _ => Some g | [] => None end.

(** * The language of a pattern: text, groups, rest *)
Fixpoint den (r : re) (x : string) (g : list (string * string)) (u : string) : Prop :=
  match r with
  | Lit p => x = p /\ g = []
  | One P => (exists c, x = String c "" /\ P c = true) /\ g = []
  | Star P | Lazy P => all_chars P x = true /\ g = []
  | Plus P => x <> "" /\ all_chars P x = true /\ g = []
  | Seq a b => exists y h z k, x = y ++ z /\ g = (h ++ k)%list /\ den a y h (z ++ u) /\ den b z k u
  | Alt a b => den a x g u \/ den b x g u
  | Opt a => den a x g u \/ (x = "" /\ g = [])
  | Grp n a => exists h, g = (h ++ [(n, x)])%list /\ den a x h u
  | End => x = "" /\ g = [] /\ (u = "" \/ u = String nl "")
  end.

Lemma longest_In P s x u : In (x, u) (longest P s) <-> s = x ++ u /\ all_chars P x = true.
Proof.
  revert x u. induction s as [|c t IH]; intros x u; cbn [longest].
  - split.
    + intros [E|[]]. now injection E as <- <-.
    + intros [E H]. destruct x; [|discriminate]. cbn in E. subst. now left.
  - rewrite in_app_iff. split.
    + intros [H|[H|[]]].
      * destruct (P c) eqn:Ec; [|destruct H]. apply in_map_iff in H. destruct H as ([x' u'] & E & H).
        injection E as <- <-. apply IH in H. destruct H as [-> H]. cbn. now rewrite Ec, H.
      * now injection H as <- <-.
    + intros [E H]. destruct x as [|d x].
      * right. left. cbn in E. now subst.
      * left. cbn in E, H. injection E as <- ->. apply andb_prop in H. destruct H as [-> H].
        apply in_map_iff. exists (x, u). split; [reflexivity|]. now apply IH.
Qed.
Lemma drop_prefix_Some p s u : drop_prefix p s = Some u <-> s = p ++ u.
Proof.
  revert s. induction p as [|c p IH]; intros s; cbn.
  - destruct s; split; intros H; congruence.
  - destruct s as [|d s]; [split; discriminate|]. destruct (Ascii.eqb_spec c d) as [<-|N].
    + rewrite IH. split; [now intros ->|now intros [= ->]].
    + split; [discriminate|intros [= E _]; congruence].
Qed.

Lemma rm_den r : forall s x g u, In (x, g, u) (rm r s) <-> s = x ++ u /\ den r x g u.
Proof.
  induction r as [p|P|P|P|P|a IHa b IHb|a IHa b IHb|a IHa|n a IHa|]; intros s x g u; cbn [rm den].
  - destruct (drop_prefix p s) as [v|] eqn:E.
    + apply drop_prefix_Some in E. subst s. split.
      * intros [H|[]]. now injection H as <- <- <-.
      * intros [H [-> ->]]. left. f_equal. clear -H. induction p; cbn in H; [auto|]. injection H as H. auto.
    + split; [intros []|]. intros [-> [-> _]]. now rewrite drop_prefix_app in E.
  - destruct s as [|c t].
    + split; [intros []|]. intros [E [(c & -> & _) _]]. discriminate.
    + destruct (P c) eqn:Ec.
      * split; [intros [H|[]]; injection H as <- <- <-; eauto|]. intros [E [(d & -> & _) ->]]. injection E as -> ->. now left.
      * split; [intros []|]. intros [E [(d & -> & H) _]]. injection E as -> _. congruence.
  - split.
    + intros H. apply in_map_iff in H. destruct H as ([y v] & E & H). injection E as <- <- <-. now apply longest_In in H.
    + intros (E & H & ->). apply in_map_iff. exists (x, u). split; [reflexivity|]. now apply longest_In.
  - split.
    + intros H. apply in_map_iff in H. destruct H as ([y v] & E & H). injection E as <- <- <-. now apply in_rev, longest_In in H.
    + intros (E & H & ->). apply in_map_iff. exists (x, u). split; [reflexivity|]. now apply in_rev; rewrite rev_involutive; apply longest_In.
  - split.
    + intros H. apply in_map_iff in H. destruct H as ([y v] & E & H). injection E as <- <- <-.
      apply filter_In in H. destruct H as [H N]. apply longest_In in H. destruct H as [-> H].
      repeat split; auto. intros ->. discriminate.
    + intros (E & N & H & ->). apply in_map_iff. exists (x, u). split; [reflexivity|]. apply filter_In. split; [now apply longest_In|].
      destruct (String.eqb_spec x ""); [congruence|reflexivity].
  - rewrite in_flat_map. split.
    + intros ([[y h] t] & H1 & H2). apply in_map_iff in H2. destruct H2 as ([[z k] v] & E & H2). injection E as <- <- <-.
      apply IHa in H1. destruct H1 as [-> H1]. apply IHb in H2. destruct H2 as [-> H2].
      split; [now rewrite str_app_assoc|]. exists y, h, z, k. auto.
    + intros (-> & y & h & z & k & -> & -> & H1 & H2). exists (y, h, z ++ u). split.
      * apply IHa. split; [now rewrite str_app_assoc|auto].
      * apply in_map_iff. exists (z, k, u). split; [reflexivity|]. apply IHb. auto.
  - rewrite in_app_iff, IHa, IHb. tauto.
  - rewrite in_app_iff, IHa. split.
    + intros [[-> H]|[H|[]]]; [auto|]. injection H as <- <- <-. auto.
    + intros (-> & [H|[-> ->]]); [auto|]. right. now left.
  - split.
    + intros H. apply in_map_iff in H. destruct H as ([[y h] v] & E & H). injection E as <- <- <-.
      apply IHa in H. destruct H as [-> H]. eauto.
    + intros (-> & h & -> & H). apply in_map_iff. exists (x, h, u). split; [reflexivity|]. apply IHa. auto.
  - destruct (String.eqb_spec s "") as [->|N1]; cbn [orb].
    + split.
      * intros [H|[]]. injection H as <- <- <-. auto.
      * intros (E & -> & -> & _). cbn in E. subst. now left.
    + destruct (String.eqb_spec s (String nl "")) as [->|N2].
      * split.
        -- intros [H|[]]. injection H as <- <- <-. auto.
        -- intros (E & -> & -> & _). cbn in E. subst. now left.
      * split; [intros []|]. intros (E & -> & _ & [->| ->]); cbn [append] in E; congruence.
Qed.

(** what re.match finds is a way to read the string; it finds one if there is one *)
Lemma re_match_sound r s g : re_match r s = Some g -> exists x u, s = x ++ u /\ den r x g u.
Proof.
  unfold re_match. destruct (rm r s) as [|[[x h] u] l] eqn:E; [discriminate|]. intros [= ->].
  exists x, u. apply rm_den. rewrite E. now left.
Qed.
Lemma re_match_none r s : re_match r s = None -> forall x u g, s = x ++ u -> ~ den r x g u.
Proof.
  unfold re_match. destruct (rm r s) as [|[[x h] u] l] eqn:E; [|discriminate]. intros _ x u g Hs Hd.
  assert (H : In (x, g, u) (rm r s)) by (apply rm_den; auto). rewrite E in H. destruct H.
Qed.

(** unique reading of a field and its separator *)
Lemma field_unique P c w1 t1 w2 t2 : all_chars P w1 = true -> all_chars P w2 = true -> P c = false ->
  w1 ++ String c t1 = w2 ++ String c t2 -> w1 = w2 /\ t1 = t2.
Proof.
  intros H1 H2 Hc. revert w2 H2. induction w1 as [|a w1 IH]; intros [|b w2] H2 E; cbn in *.
  - now injection E as ->.
  - injection E as <- _. rewrite Hc in H2. discriminate.
  - injection E as -> _. rewrite Hc in H1. discriminate.
  - injection E as -> E. apply andb_prop in H1, H2. destruct (IH (proj2 H1) w2 (proj2 H2) E) as [-> ->]. auto.
Qed.
