(** C41, C42, C52, C53, C56: patterns, boolean arguments, marker database repair, extraction modes. *)
From Coq Require Import String Ascii Lia.
From Verif Require Import PyBase PyLib PyStr UT_Model UT_Spec UT_Proofs.
Local Open Scope string_scope.
Local Open Scope list_scope.

(** ** C41 *)
(** exactly the contradictory patterns are rejected *)
Theorem C41_rejected :
  forall pattern, parse_choice pattern = None <->
    (names pattern "none" /\ names pattern "all") \/
    (names pattern "none" /\ exists x, names pattern (String "-" x)) \/
    (names pattern "all" /\ exists x, names pattern (String "+" x)).
Proof.
  intros pattern. unfold parse_choice. cbn [has_all has_none ch_included ch_excluded].
  assert (A : mem "all" (components pattern) = true <-> names pattern "all") by (rewrite mem_In; apply components_names).
  assert (N : mem "none" (components pattern) = true <-> names pattern "none") by (rewrite mem_In; apply components_names).
  assert (I : Nat.leb 1 (List.length (signed (chr 43) (components pattern))) = true <-> exists x, names pattern (String "+" x)).
  { rewrite nonempty_len. split; intros (x & J); exists x; [apply signed_In, components_names in J | apply signed_In, components_names]; exact J. }
  assert (X : Nat.leb 1 (List.length (signed (chr 45) (components pattern))) = true <-> exists x, names pattern (String "-" x)).
  { rewrite nonempty_len. split; intros (x & J); exists x; [apply signed_In, components_names in J | apply signed_In, components_names]; exact J. }
  rewrite <- A, <- N, <- I, <- X. clear A N I X.
  destruct (mem "none" (components pattern)), (mem "all" (components pattern)),
    (Nat.leb 1 (List.length (signed (chr 45) (components pattern)))), (Nat.leb 1 (List.length (signed (chr 43) (components pattern))));
    cbn; intuition discriminate.
Qed.
Print Assumptions C41_rejected.
(** in a pattern with 'all' exactly the choices named with '-' are left out, in one with 'none' exactly those named with '+' are kept *)
Theorem C41_is_included :
  forall pattern p c, parse_choice pattern = Some p ->
  (names pattern "all" -> (is_included p c = true <-> ~ names pattern (String "-" c))) /\
  (names pattern "none" -> (is_included p c = true <-> names pattern (String "+" c))).
Proof.
  intros pattern p c E. pose proof (parse_fields _ _ E) as (A & N & I & X). unfold is_included. split; intros J.
  - assert (Nn : has_none p = false).
    { destruct (has_none p) eqn:H; [|reflexivity]. exfalso. assert (parse_choice pattern = None); [|congruence]. apply C41_rejected. left. split; [apply N; reflexivity | exact J]. }
    rewrite Nn, (proj2 A J), negb_true_iff. rewrite <- X, <- mem_In. destruct (mem c (ch_excluded p)); intuition congruence.
  - rewrite (proj2 N J), mem_In. apply I.
Qed.
Print Assumptions C41_is_included.
(** ... and filter keeps these choices, in their order and as often as given *)
Theorem C41_filter :
  forall pattern p choices, parse_choice pattern = Some p -> names pattern "all" \/ names pattern "none" ->
  choice_filter p choices = filter (is_included p) choices.
Proof.
  intros pattern p choices E J. pose proof (parse_fields _ _ E) as (A & N & _). unfold choice_filter, is_included.
  destruct (has_none p) eqn:Hn, (has_all p) eqn:Ha; try reflexivity.
  - exfalso. assert (parse_choice pattern = None); [|congruence]. apply C41_rejected. left. split; [apply N | apply A]; reflexivity.
  - exfalso. destruct J as [J|J]; [apply A in J | apply N in J]; congruence.
Qed.
Print Assumptions C41_filter.
(** a name with an upper-case letter can be named in no pattern *)
Theorem C41_upper_case_unnamed :
  forall pattern sign c, has_upper c -> ~ names pattern (String sign c).
Proof.
  assert (L : forall a, lower_ascii (lower_ascii a) = lower_ascii a).
  { intros a. destruct a as [[] [] [] [] [] [] [] []]; vm_compute; reflexivity. }
  assert (F : forall s, casefold (casefold s) = casefold s) by (induction s as [|a s IH]; cbn; [reflexivity | rewrite L, IH; reflexivity]).
  assert (Lo : forall s t, casefold s = s -> s = String.append "" t -> casefold t = t) by (intros s t A ->; exact A).
  assert (Ls : forall s, casefold s = s -> casefold (lstrip s) = lstrip s).
  { induction s as [|a s IH]; intros E; [reflexivity|]. cbn [lstrip]. destruct (isspace a); [|exact E]. apply IH. cbn in E. congruence. }
  assert (Rs : forall s, casefold s = s -> casefold (rstrip s) = rstrip s).
  { induction s as [|a s IH]; intros E; [reflexivity|]. cbn in E. assert (Ea : lower_ascii a = a) by congruence. assert (Es : casefold s = s) by congruence.
    specialize (IH Es). cbn [rstrip]. destruct (rstrip s) as [|b t]; [destruct (isspace a); cbn; congruence|]. cbn [casefold] in *. rewrite Ea. congruence. }
  intros pattern sign c U (x & _ & E). apply U.
  assert (G : casefold (String sign c) = String sign c) by (rewrite <- E; unfold strip; apply Rs, Ls, F). cbn in G. congruence.
Qed.
Print Assumptions C41_upper_case_unnamed.
(** with neither 'all' nor 'none' filter and is_included disagree *)
Theorem C41_neither_refuted :
  exists pattern p c, parse_choice pattern = Some p /\ choice_filter p [c] = [c] /\ is_included p c = false.
Proof. exists "+nild5", (Choice false false ["nild5"] []), "nild5". repeat split. Qed.
Print Assumptions C41_neither_refuted.
Example C41_all_example : kept "ALL, -nild5 ,-nild6" ["nild4"; "nild5"; "capild"; "nild6"; "nild4"] = Some ["nild4"; "capild"; "nild4"].
Proof. vm_compute. reflexivity. Qed.
Example C41_none_example : kept "none,+nild5, +CAPILD" ["nild4"; "nild5"; "capild"; "nild6"] = Some ["nild5"; "capild"].
Proof. vm_compute. reflexivity. Qed.
Example C41_contradictions : (kept "all,none" [], kept "none,-x" [], kept "all,+x" []) = (None, None, None).
Proof. vm_compute. reflexivity. Qed.

(** ** C42 *)
Theorem C42_true_or_false :
  forall s,
  (true_or_false (AStr s) = Some true <-> exists w, In w ["yes"; "true"; "t"; "y"] /\ same_letters s w) /\
  (true_or_false (AStr s) = Some false <-> exists w, In w ["no"; "false"; "f"; "n"] /\ same_letters s w) /\
  (forall b, true_or_false (ABool b) = Some b).
Proof.
  intros s. assert (LT : forall w, In w ["yes"; "true"; "t"; "y"] -> casefold w = w) by (intros w J; repeat (destruct J as [<-|J]; [reflexivity|]); destruct J).
  assert (LF : forall w, In w ["no"; "false"; "f"; "n"] -> casefold w = w) by (intros w J; repeat (destruct J as [<-|J]; [reflexivity|]); destruct J).
  rewrite <- (mem_fold s _ LT), <- (mem_fold s _ LF). unfold true_or_false. split; [|split; [|reflexivity]].
  - destruct (mem (casefold s) ["yes"; "true"; "t"; "y"]); [tauto|]. destruct (mem (casefold s) ["no"; "false"; "f"; "n"]); intuition discriminate.
  - destruct (mem (casefold s) ["yes"; "true"; "t"; "y"]) eqn:T.
    + split; [discriminate|]. intros F. exfalso. apply mem_In in T, F. cbn in T, F.
      destruct T as [T|[T|[T|[T|[]]]]]; rewrite <- T in F; intuition discriminate.
    + destruct (mem (casefold s) ["no"; "false"; "f"; "n"]); intuition discriminate.
Qed.
Print Assumptions C42_true_or_false.
(** the digits listed in the source are rejected *)
Theorem C42_digits_refuted : true_or_false (AStr "1") = None /\ true_or_false (AStr "0") = None.
Proof. split; reflexivity. Qed.
Example C42_example : (true_or_false (AStr "YeS"), true_or_false (AStr "F"), true_or_false (AStr "maybe")) = (Some true, Some false, None).
Proof. vm_compute. reflexivity. Qed.

(** ** C56 *)
Theorem C56_modes :
  forall s m, parse_mode s = Some m ->
  (need_capacitance m = true <-> s = "CC" \/ s = "RC") /\ (need_resistance m = true <-> s = "R" \/ s = "RC") /\
  (need_capacitance m = true \/ need_resistance m = true).
Proof.
  intros s m E. unfold parse_mode in E. destruct (eqb s "CC") eqn:A; [apply eqb_eq in A|destruct (eqb s "RC") eqn:B; [apply eqb_eq in B|destruct (eqb s "R") eqn:C; [apply eqb_eq in C|discriminate]]];
    injection E as <-; subst; cbn; intuition discriminate.
Qed.
Print Assumptions C56_modes.
Theorem C56_default : need_capacitance DEFAULT = true /\ need_resistance DEFAULT = false /\ parse_mode "CC" = Some DEFAULT.
Proof. repeat split. Qed.
Example C56_example : (parse_mode "RC", parse_mode "rc") = (Some RC, None).
Proof. vm_compute. reflexivity. Qed.

(** ** C52 *)
(** A path of written names is read back as the names, whatever way of writing was used for each; only the last must not be empty. *)
Theorem C52_parse_written :
  forall (es ws : list string), Forall2 (writes false) es ws -> last ws "x" <> "" ->
  parse_category_path (join "." es) = ws.
Proof.
  unfold parse_category_path. induction 1 as [|e w es ws W F IH]; intros L; [reflexivity|]. destruct F as [|e2 w2 es ws W2 F].
  - cbn [join]. rewrite <- (str_app_nil e), (writes_parse _ _ _ W). cbn [append parse_path]. cbn in L. destruct w; [congruence | reflexivity].
  - change (join "." (e :: e2 :: es)) with (e ++ String "." (join "." (e2 :: es)))%string. rewrite (writes_parse _ _ _ W). cbn [append parse_path].
    change (eqb "."%char dot) with true. cbv iota. f_equal. apply IH. exact L.
Qed.
Print Assumptions C52_parse_written.
Theorem C52_all_names_writable :
  forall w, writes false (with_backslashes w) w /\ writes false (String "'" (quoted_body w)) w.
Proof.
  assert (SE : forall c, is_special c = true <-> special c) by (intros c; rewrite special_eqb; unfold is_special; rewrite !orb_true_iff; tauto).
  intros w. split.
  - induction w as [|c w IH]; cbn; [constructor|]. destruct (is_special c) eqn:E; constructor; auto; [apply SE, E | rewrite <- SE; congruence].
  - apply w_quote. cbn [negb]. induction w as [|c w IH]; cbn [quoted_body]; [apply w_quote; constructor|].
    destruct (eqb c backslash || eqb c apos) eqn:E.
    + apply w_escaped; [|exact IH]. apply special_eqb. apply orb_true_iff in E. tauto.
    + apply orb_false_iff in E. destruct E as [B A]. destruct (eqb c dot) eqn:D.
      * apply eqb_eq in D. subst c. apply w_quoted_dot. exact IH.
      * apply w_plain; [|exact IH]. rewrite special_eqb. intros [X|[X|X]]; congruence.
Qed.
Print Assumptions C52_all_names_writable.
(** an unescaped backslash disappears and still acts on a later dot; a trailing empty name is lost *)
Theorem C52_lone_backslash_refuted : parse_category_path "a\b.c" = ["ab.c"].
Proof. reflexivity. Qed.
Theorem C52_trailing_empty_refuted : exists ws, Forall2 (writes false) ws ws /\ parse_category_path (join "." ws) <> ws.
Proof.
  exists ["a"; ""]. split; [|vm_compute; discriminate]. repeat constructor. unfold special. cbn. intuition discriminate.
Qed.
Example C52_example : parse_category_path "a\.b.'c.d'.\'e\\.'f'g" = ["a.b"; "c.d"; "'e\"; "fg"].
Proof. vm_compute. reflexivity. Qed.
Example C52_hypothesis : Forall2 (writes false) ["a\.b"; "'c.d'"] ["a.b"; "c.d"] /\ last ["a.b"; "c.d"] "x" <> "".
Proof. split; [|discriminate]. constructor; [exact (proj1 (C52_all_names_writable "a.b")) | constructor; [exact (proj2 (C52_all_names_writable "c.d")) | constructor]]. Qed.

(** ** C53 *)
(** Repairing a database in which every category has a <categories> element: every category used by an item can be followed
    afterwards, nothing that was there is changed or moved, only the missing categories on the used paths are added, and a
    second repair changes nothing.  (Names without apostrophes: the lookup quotes them with apostrophes.) *)
Theorem C53_repair :
  forall (categories : list string) (root : list cat), complete root ->
  (forall c n, In c categories -> In n (parse_category_path c) -> no_apostrophe n) ->
  exists out, repair categories root = Some out /\
    (forall c, In c categories -> follows out (parse_category_path c)) /\
    extends root out /\
    (forall q, follows out q -> follows root q \/ exists c more, In c categories /\ parse_category_path c = q ++ more) /\
    complete out /\ repair categories out = Some out.
Proof.
  intros categories root C _. destruct (add_all_ok (py_sorted path_lt (map parse_category_path categories)) root C) as (out & E & Co & X & F & M).
  exists out. split; [exact E|]. split; [|split; [exact X|split; [|split; [exact Co|]]]].
  - intros c J. apply F, In_py_sorted, in_map, J.
  - intros q G. destruct (M q G) as [H|(p & more & J & P)]; [left; exact H|]. apply In_py_sorted in J. apply in_map_iff in J. destruct J as (c & <- & J).
    right. exists c, more. auto.
  - apply add_all_there. exact F.
Qed.
Print Assumptions C53_repair.
(** what was followed before can be followed afterwards *)
Theorem C53_old_paths_kept : forall a b, extends a b -> forall q, follows a q -> follows b q.
Proof. exact extends_follows. Qed.
(** a category without <categories> element stops the repair as soon as an item uses a category below it *)
Theorem C53_missing_element_refuted : exists categories root, repair categories root = None.
Proof. exists ["a.b"], [Cat "a" None]. reflexivity. Qed.
Example C53_example :
  repair ["m1.'x.y'.deep"; "via"; "m1.sub"] [Cat "m1" (Some [Cat "old" (Some [])]); Cat "via" (Some [])]
  = Some [Cat "m1" (Some [Cat "old" (Some []); Cat "sub" (Some []); Cat "x.y" (Some [Cat "deep" (Some [])])]); Cat "via" (Some [])].
Proof. vm_compute. reflexivity. Qed.
Example C53_hypotheses : complete [Cat "m1" (Some [Cat "old" (Some [])]); Cat "via" (Some [])] /\
  (forall c n, In c ["m1.'x.y'.deep"; "via"; "m1.sub"] -> In n (parse_category_path c) -> no_apostrophe n).
Proof.
  split; [repeat constructor|]. intros c n J K. cbn in J. repeat (destruct J as [<-|J]; [vm_compute in K; repeat (destruct K as [<-|K]; [reflexivity|]); destruct K|]). destruct J.
Qed.
