(** C102, C103: log levels, and the cases of options (klayout_pex/log/logger.py, klayout_pex/util/argparse_helpers.py, klayout_pex/kpex_cli.py,
    klayout_pex/netlist/netlist_cli.py). *)
From Coq Require Import ZArith String Ascii Lia.
From Verif Require Import PyBase PyLib LL_Model LL_Spec.
Local Close Scope Qc_scope.
Local Open Scope string_scope.
Local Open Scope list_scope.
Local Open Scope Z_scope.

(** ** Upper and lower case *)
Lemma upper_lower_ascii c : upper_ascii c = upper_ascii (lower_ascii c).
Proof. destruct c as [[] [] [] [] [] [] [] []]; vm_compute; reflexivity. Qed.
Lemma lower_upper_ascii c : lower_ascii (upper_ascii c) = lower_ascii c.
Proof. destruct c as [[] [] [] [] [] [] [] []]; vm_compute; reflexivity. Qed.
Lemma upper_lower s : upper s = upper (casefold s).
Proof. induction s as [|c s IH]; cbn; [reflexivity|]. now rewrite <- IH, <- upper_lower_ascii. Qed.
Lemma lower_upper s : casefold (upper s) = casefold s.
Proof. induction s as [|c s IH]; cbn; [reflexivity|]. now rewrite IH, lower_upper_ascii. Qed.

(** ** Messages *)
(** the numbers of the levels *)
Definition number (w : string) : Z :=
  match by_name LogLevel (upper w) with Some (VInt z) => z | _ => 0 end.
Definition importance (c : call) : option Z :=
  match c with Rule _ => None | Debug _ _ => Some 10 | Subproc _ _ => Some 12 | Info _ _ => Some 20 | Warning _ _ => Some 30 | Error _ _ => Some 40 end.
Lemma importance_word c : importance c = match word_of c with Some w => Some (number w) | None => None end.
Proof. destruct c; reflexivity. Qed.
Lemma at_least_number v w : In v level_words -> In w level_words -> at_least v w = (number v <=? number w).
Proof. cbn. intros V W. repeat (destruct V as [<- |V]; [repeat (destruct W as [<- |W]; [vm_compute; reflexivity|]); destruct W|]). destruct V. Qed.
Lemma word_in c w : word_of c = Some w -> In w level_words.
Proof. destruct c; cbn; intros E; [discriminate|..]; injection E as <-; intuition. Qed.
Lemma chosen given word : chooses given word -> In word level_words /\ kpex_log_level given = Some (VInt (number word)).
Proof.
  intros C. destruct C as [|s E|s I].
  - split; [cbn; intuition|reflexivity].
  - split; [cbn; intuition|]. unfold kpex_log_level. rewrite upper_lower, E. reflexivity.
  - split; [exact I|]. unfold kpex_log_level. rewrite upper_lower. unfold number. cbn in I. repeat (destruct I as [<- |I]; [reflexivity|]). destruct I.
Qed.
(** the handlers of the logger with and without log files *)
Definition consoles : list handler := handlers configured.
Definition all_handlers : list handler := consoles ++ [plain_handler; formatted_handler].
Definition eff (l : Z) : Z := if l =? 0 then 30 else l.
Definition shownZ (l : Z) (c : call) : bool := match importance c with Some i => l <=? i | None => true end.
Definition loggedZ (l : Z) (c : call) : bool := match importance c with Some i => (l <=? i) && (12 <=? i) | None => false end.
Lemma lines_other w f g l : f <> g -> lines (write_line f l w) g = lines w g.
Proof. intros N. unfold lines, write_line. cbn [files]. rewrite dget_dset_other; [reflexivity|congruence]. Qed.
Lemma lines_same w f l : lines (write_line f l w) f = lines w f ++ [l].
Proof. unfold lines, write_line. cbn [files]. now rewrite dget_dset_same. Qed.

Lemma step_consoles w c : handlers w = consoles -> plain c ->
  exists w' ps, run_call c w = Some w' /\ handlers w' = handlers w /\ logger_level w' = logger_level w /\ files w' = files w /\ console w' = console w ++ ps /\
    Forall2 appears (filter (shownZ (eff (logger_level w))) [c]) ps.
Proof.
  intros H P. destruct w as [lv hs con fl]. cbn in H. subst hs. cbn [logger_level].
  destruct c as [t|[m a] t|[m a] t|[m a] t|[m a] t|[m a] t]; [|assert (a = []) as -> by (exact (P _ eq_refl))..]; unfold run_call, log, effective_level, eff, shownZ; cbn [importance filter level logger_level].
  - eexists. exists [PRule t]. repeat split; try reflexivity. repeat constructor.
  - destruct ((if lv =? 0 then 30 else lv) <=? 10); eexists; eexists; (split; [reflexivity|]); cbn; repeat split; try (symmetry; apply app_nil_r); repeat constructor.
  - destruct ((if lv =? 0 then 30 else lv) <=? 12); eexists; eexists; (split; [reflexivity|]); cbn; repeat split; try (symmetry; apply app_nil_r); repeat constructor.
  - destruct ((if lv =? 0 then 30 else lv) <=? 20); eexists; eexists; (split; [reflexivity|]); cbn; repeat split; try (symmetry; apply app_nil_r); repeat constructor.
  - destruct ((if lv =? 0 then 30 else lv) <=? 30); eexists; eexists; (split; [reflexivity|]); cbn; repeat split; try (symmetry; apply app_nil_r); repeat constructor.
  - destruct ((if lv =? 0 then 30 else lv) <=? 40); eexists; eexists; (split; [reflexivity|]); cbn; repeat split; try (symmetry; apply app_nil_r); repeat constructor.
Qed.
Lemma step_files w c : handlers w = all_handlers -> plain c ->
  exists w' ps l0 l1, run_call c w = Some w' /\ handlers w' = handlers w /\ logger_level w' = logger_level w /\ console w' = console w ++ ps /\
    lines w' 0 = lines w 0 ++ l0 /\ lines w' 1 = lines w 1 ++ l1 /\
    Forall2 appears (filter (shownZ (eff (logger_level w))) [c]) ps /\
    Forall2 plain_line (filter (loggedZ (eff (logger_level w))) [c]) l0 /\ Forall2 dated_line (filter (loggedZ (eff (logger_level w))) [c]) l1.
Proof.
  intros H P. destruct w as [lv hs con fl]. cbn in H. subst hs. cbn [logger_level].
  assert (X : forall lv hs con fl f, lines (World lv hs con fl) f = match dget fl f with Some l => l | None => [] end) by reflexivity.
  destruct c as [t|[m a] t|[m a] t|[m a] t|[m a] t|[m a] t]; [|assert (a = []) as -> by (exact (P _ eq_refl))..]; unfold run_call, log, effective_level, eff, shownZ, loggedZ; cbn [importance filter level logger_level].
  - eexists. exists [PRule t], [], []. rewrite !app_nil_r. repeat split; try reflexivity; repeat constructor.
  - destruct ((if lv =? 0 then 30 else lv) <=? 10); cbn [andb Z.leb Z.compare Pos.compare Pos.compare_cont].
    + eexists. exists [PLine "DEBUG" m], [], []. rewrite !app_nil_r. split; [reflexivity|]. repeat split; repeat constructor.
    + eexists. exists [], [], []. rewrite !app_nil_r. split; [reflexivity|]. repeat split; repeat constructor.
  - destruct ((if lv =? 0 then 30 else lv) <=? 12); cbn [andb Z.leb Z.compare Pos.compare Pos.compare_cont].
    + eexists. exists [PBare m], [m], ["[" ++ t ++ "] [SUBPROCESS]    " ++ m]%string. split; [reflexivity|]. repeat split; try (repeat constructor; fail).
      * rewrite lines_other by discriminate. rewrite lines_same. reflexivity.
      * rewrite lines_same, lines_other by discriminate. reflexivity.
    + eexists. exists [], [], []. rewrite !app_nil_r. split; [reflexivity|]. repeat split; repeat constructor.
  - destruct ((if lv =? 0 then 30 else lv) <=? 20); cbn [andb Z.leb Z.compare Pos.compare Pos.compare_cont].
    + eexists. exists [PLine "INFO" m], [m], ["[" ++ t ++ "] [INFO]    " ++ m]%string. split; [reflexivity|]. repeat split; try (repeat constructor; fail).
      * rewrite lines_other by discriminate. rewrite lines_same. reflexivity.
      * rewrite lines_same, lines_other by discriminate. reflexivity.
    + eexists. exists [], [], []. rewrite !app_nil_r. split; [reflexivity|]. repeat split; repeat constructor.
  - destruct ((if lv =? 0 then 30 else lv) <=? 30); cbn [andb Z.leb Z.compare Pos.compare Pos.compare_cont].
    + eexists. exists [PLine "WARNING" ("[yellow]" ++ m)], [m], ["[" ++ t ++ "] [WARNING]    " ++ m]%string. split; [reflexivity|]. repeat split; try (repeat constructor; fail).
      * rewrite lines_other by discriminate. rewrite lines_same. reflexivity.
      * rewrite lines_same, lines_other by discriminate. reflexivity.
    + eexists. exists [], [], []. rewrite !app_nil_r. split; [reflexivity|]. repeat split; repeat constructor.
  - destruct ((if lv =? 0 then 30 else lv) <=? 40); cbn [andb Z.leb Z.compare Pos.compare Pos.compare_cont].
    + eexists. exists [PLine "ERROR" ("[red]" ++ m)], [m], ["[" ++ t ++ "] [ERROR]    " ++ m]%string. split; [reflexivity|]. repeat split; try (repeat constructor; fail).
      * rewrite lines_other by discriminate. rewrite lines_same. reflexivity.
      * rewrite lines_same, lines_other by discriminate. reflexivity.
    + eexists. exists [], [], []. rewrite !app_nil_r. split; [reflexivity|]. repeat split; repeat constructor.
Qed.
Lemma filter_cons {A} (f : A -> bool) a l : filter f (a :: l) = filter f [a] ++ filter f l.
Proof. cbn. now destruct (f a). Qed.
Lemma play_consoles : forall cs w, handlers w = consoles -> Forall plain cs ->
  exists w' ps, play cs w = Some w' /\ handlers w' = handlers w /\ logger_level w' = logger_level w /\ files w' = files w /\ console w' = console w ++ ps /\
    Forall2 appears (filter (shownZ (eff (logger_level w))) cs) ps.
Proof.
  induction cs as [|c cs IH]; intros w H F.
  - exists w, []. rewrite app_nil_r. repeat split; constructor.
  - inversion F as [|? ? P F']; subst. destruct (step_consoles w c H P) as (w1 & p1 & E1 & H1 & L1 & F1 & C1 & A1).
    destruct (IH w1 (eq_trans H1 H) F') as (w2 & p2 & E2 & H2 & L2 & F2 & C2 & A2). exists w2, (p1 ++ p2). cbn. rewrite E1.
    split; [exact E2|]. split; [congruence|]. split; [congruence|]. split; [congruence|]. split; [rewrite C2, C1; apply app_assoc_reverse|].
    change (if shownZ (eff (logger_level w)) c then c :: filter (shownZ (eff (logger_level w))) cs else filter (shownZ (eff (logger_level w))) cs) with (filter (shownZ (eff (logger_level w))) (c :: cs)).
    rewrite filter_cons. apply Forall2_app; [exact A1|]. now rewrite <- L1.
Qed.
Lemma play_files : forall cs w, handlers w = all_handlers -> Forall plain cs ->
  exists w' ps l0 l1, play cs w = Some w' /\ handlers w' = handlers w /\ logger_level w' = logger_level w /\ console w' = console w ++ ps /\
    lines w' 0 = lines w 0 ++ l0 /\ lines w' 1 = lines w 1 ++ l1 /\
    Forall2 appears (filter (shownZ (eff (logger_level w))) cs) ps /\
    Forall2 plain_line (filter (loggedZ (eff (logger_level w))) cs) l0 /\ Forall2 dated_line (filter (loggedZ (eff (logger_level w))) cs) l1.
Proof.
  induction cs as [|c cs IH]; intros w H F.
  - exists w, [], [], []. rewrite !app_nil_r. repeat split; constructor.
  - inversion F as [|? ? P F']; subst. destruct (step_files w c H P) as (w1 & p1 & a1 & b1 & E1 & H1 & L1 & C1 & X1 & Y1 & A1 & B1 & D1).
    destruct (IH w1 (eq_trans H1 H) F') as (w2 & p2 & a2 & b2 & E2 & H2 & L2 & C2 & X2 & Y2 & A2 & B2 & D2). exists w2, (p1 ++ p2), (a1 ++ a2), (b1 ++ b2). cbn [play]. rewrite E1.
    rewrite L1 in A2, B2, D2. rewrite !(filter_cons _ c cs).
    split; [exact E2|]. split; [congruence|]. split; [congruence|]. split; [rewrite C2, C1; apply app_assoc_reverse|].
    split; [rewrite X2, X1; apply app_assoc_reverse|]. split; [rewrite Y2, Y1; apply app_assoc_reverse|]. repeat split; now apply Forall2_app.
Qed.
Lemma shown_number v : In v level_words -> forall cs, filter (shown v) cs = filter (shownZ (number v)) cs.
Proof.
  intros V cs. apply filter_ext. intros c. unfold shown, shownZ. rewrite importance_word. destruct (word_of c) as [w|] eqn:W; [|reflexivity].
  apply at_least_number; [exact V|]. now apply word_in in W.
Qed.
Lemma logged_number v : In v level_words -> forall cs, filter (logged v) cs = filter (loggedZ (number v)) cs.
Proof.
  intros V cs. apply filter_ext. intros c. unfold logged, loggedZ. rewrite importance_word. destruct (word_of c) as [w|] eqn:W; [|reflexivity].
  rewrite !at_least_number; [reflexivity|cbn; intuition|now apply word_in in W|exact V|now apply word_in in W].
Qed.
(** the part of a run up to the end of the validation of the arguments *)
Lemma run_start opening validation : Forall plain opening -> Forall plain validation ->
  exists w w0 ps l0 l1, play opening configured = Some w /\ play validation (register formatted_handler (register plain_handler w)) = Some w0 /\
    handlers w0 = all_handlers /\ console w0 = ps /\ lines w0 0 = l0 /\ lines w0 1 = l1 /\
    Forall2 appears (filter (shown "subprocess") (opening ++ validation)) ps /\
    Forall2 plain_line (filter (logged "subprocess") validation) l0 /\ Forall2 dated_line (filter (logged "subprocess") validation) l1.
Proof.
  intros O V. destruct (play_consoles opening configured eq_refl O) as (w & ps & E & H & L & F & C & A).
  destruct (play_files validation (register formatted_handler (register plain_handler w))) as (w0 & p0 & l0 & l1 & E0 & H0 & L0 & C0 & X & Y & A0 & B & D).
  { cbn. rewrite H. reflexivity. } { exact V. }
  exists w, w0, (ps ++ p0), l0, l1. split; [exact E|]. split; [exact E0|]. cbn in C0. rewrite C in C0. cbn in C0.
  change (lines (register formatted_handler (register plain_handler w)) 0) with (match dget (files w) 0%nat with Some l => l | None => [] end) in X.
  change (lines (register formatted_handler (register plain_handler w)) 1) with (match dget (files w) 1%nat with Some l => l | None => [] end) in Y.
  rewrite F in X, Y. cbn in X, Y. change (logger_level (register formatted_handler (register plain_handler w))) with (logger_level w) in A0, B, D. rewrite L in A0, B, D.
  change (eff (logger_level configured)) with (number "subprocess") in A, A0, B, D.
  rewrite <- shown_number in A, A0 by (cbn; intuition). rewrite <- logged_number in B, D by (cbn; intuition).
  split; [rewrite H0; cbn; rewrite H; reflexivity|]. repeat split; try assumption. rewrite filter_app. now apply Forall2_app.
Qed.
(** ** C102 *)
(** With a log level other than "all", every message of at least this level stands on the console once, in order, and nothing else does but horizontal
    lines; until the arguments are checked the level is "subprocess".  In each log file stand the same messages, from the opening of the files on, without
    the lines and without debugging messages. *)
Definition follows (word : string) (opening validation rest : list call) (w : world) : Prop :=
  Forall2 appears (filter (shown "subprocess") (opening ++ validation) ++ filter (shown word) rest) (console w) /\
  Forall2 plain_line (filter (logged "subprocess") validation ++ filter (logged word) rest) (lines w 0) /\
  Forall2 dated_line (filter (logged "subprocess") validation ++ filter (logged word) rest) (lines w 1).
Lemma run_rest given word opening validation rest : chooses given word -> Forall plain (opening ++ validation ++ rest) ->
  exists w, kpex_run given true opening validation rest = Some w /\ follows (if String.eqb word "all" then "warning" else word) opening validation rest w.
Proof.
  intros G P. apply Forall_app in P. destruct P as [O P]. apply Forall_app in P. destruct P as [V R]. destruct (chosen given word G) as [I K].
  destruct (run_start opening validation O V) as (w & w0 & ps & l0 & l1 & E & E0 & H & C & X & Y & A & B & D). unfold kpex_run. rewrite E, E0, K.
  set (w1 := set_log_level (number word) (register formatted_handler (deregister 1 (register plain_handler (deregister 0 w0))))).
  destruct (play_files rest w1) as (w2 & p2 & a2 & b2 & E2 & H2 & L2 & C2 & X2 & Y2 & A2 & B2 & D2); [unfold w1; cbn; rewrite H; reflexivity|exact R|].
  exists w2. split; [exact E2|]. change (console w1) with (console w0) in C2. change (lines w1 0) with (lines w0 0) in X2. change (lines w1 1) with (lines w0 1) in Y2.
  change (logger_level w1) with (number word) in A2, B2, D2.
  assert (N : eff (number word) = number (if String.eqb word "all" then "warning" else word)).
  { cbn in I. repeat (destruct I as [<- |I]; [reflexivity|]). destruct I. }
  assert (J : In (if String.eqb word "all" then "warning" else word) level_words) by (destruct (String.eqb word "all"); [cbn; intuition|exact I]).
  rewrite N in A2, B2, D2. rewrite <- shown_number in A2 by exact J. rewrite <- logged_number in B2, D2 by exact J.
  unfold follows. rewrite C2, C, X2, X, Y2, Y. repeat split; now apply Forall2_app.
Qed.
Theorem C102_level : forall given word opening validation rest, chooses given word -> word <> "all" -> Forall plain (opening ++ validation ++ rest) ->
  exists w, kpex_run given true opening validation rest = Some w /\ follows word opening validation rest w.
Proof.
  intros given word opening validation rest C N P. destruct (run_rest given word opening validation rest C P) as (w & E & F). exists w. split; [exact E|].
  apply String.eqb_neq in N. now rewrite N in F.
Qed.
(** The level "all" acts like "warning" *)
Theorem C102_all : forall given opening validation rest, chooses given "all" -> Forall plain (opening ++ validation ++ rest) ->
  exists w, kpex_run given true opening validation rest = Some w /\ follows "warning" opening validation rest w.
Proof. intros given opening validation rest C P. exact (run_rest given "all" opening validation rest C P). Qed.
(** A run whose arguments are refused, or whose log level does not exist, has reported all messages up to there. *)
Theorem C102_refused : forall given valid opening validation rest, Forall plain (opening ++ validation ++ rest) ->
  valid = false \/ (forall word, ~ chooses given word) ->
  exists w, kpex_run given valid opening validation rest = Some w /\ follows "subprocess" opening validation [] w.
Proof.
  intros given valid opening validation rest P X. apply Forall_app in P. destruct P as [O P]. apply Forall_app in P. destruct P as [V _].
  destruct (run_start opening validation O V) as (w & w0 & ps & l0 & l1 & E & E0 & H & C & X0 & Y & A & B & D). unfold kpex_run. rewrite E, E0.
  exists w0. split.
  - destruct (kpex_log_level given) as [[s|z]|] eqn:K; [reflexivity| |reflexivity]. destruct X as [-> |X]; [reflexivity|]. exfalso. unfold kpex_log_level, by_name in K.
    destruct given as [s|]; [|now apply (X "subprocess"); constructor].
    assert (Z : exists n, upper s = n /\ In n (map fst (members LogLevel))).
    { exists (upper s). split; [reflexivity|]. destruct (in_dec string_dec (upper s) (map fst (members LogLevel))) as [I|I]; [exact I|]. exfalso.
      assert (U : dget (members LogLevel) (upper s) = None) by (apply dget_None; exact I). congruence. }
    destruct Z as (n & U & I). assert (Q := f_equal casefold U). rewrite lower_upper in Q. cbn in I.
    repeat (destruct I as [<- |I]; [first [apply (X (casefold s)); apply Word; rewrite Q; cbn; now intuition | apply (X "subprocess"); apply Default; rewrite Q; reflexivity]|]). destruct I.
  - unfold follows. cbn [filter]. rewrite !app_nil_r, C, X0, Y. repeat split; assumption.
Qed.
Lemma play_app : forall a b w, play (a ++ b) w = match play a w with Some w => play b w | None => None end.
Proof. induction a as [|c a IH]; intros b w; cbn; [reflexivity|]. destruct (run_call c w); [apply IH|reflexivity]. Qed.
(** A message never stops a run, and it is shown if its level is high enough: refuted for the level "all", under which a message of level "info" is lost; *)
Theorem C102_all_refuted : exists given opening validation rest w, chooses given "all" /\ Forall plain (opening ++ validation ++ rest) /\
  kpex_run given true opening validation rest = Some w /\ ~ follows "all" opening validation rest w.
Proof.
  exists (Some "all"), [], [], [Info (Msg "2.5D extraction" []) "12:00:00"]. eexists. split; [apply (Word "all"); cbn; intuition|]. split.
  - repeat constructor. intros m E. injection E as <-. reflexivity.
  - split; [reflexivity|]. intros (A & _). inversion A.
Qed.
(** for horizontal lines, which are said to need at least the level "info"; *)
Theorem C102_rule_refuted : exists given word rest w t, chooses given word /\ at_least "info" word = true /\ word <> "info" /\
  kpex_run given true [] [] rest = Some w /\ In (PRule t) (console w).
Proof.
  exists (Some "critical"), "critical", [Rule "LVS"]. eexists. exists "LVS". split; [apply (Word "critical"); cbn; intuition|]. split; [reflexivity|]. split; [discriminate|].
  split; [reflexivity|]. now left.
Qed.
(** and for the message about a pattern of --diel that cannot be read: instead of the message there is an exception, whatever else the run says. *)
Theorem C102_diel_refuted : forall given valid opening before after rest e time, Forall plain (opening ++ before) ->
  kpex_run given valid opening (before ++ diel_error e time :: after) rest = None.
Proof.
  intros given valid opening before after rest e time P. apply Forall_app in P. destruct P as [O B].
  unfold kpex_run. destruct (play_consoles opening configured eq_refl O) as (w & ps & E & H & L & F & _). rewrite E, play_app.
  destruct (play_files before (register formatted_handler (register plain_handler w))) as (w0 & p0 & l0 & l1 & E0 & H0 & L0 & _); [cbn; rewrite H; reflexivity|exact B|].
  rewrite E0. cbn [play]. assert (X : run_call (diel_error e time) w0 = None); [|now rewrite X].
  destruct w0 as [lv hs con fl]. cbn in H0, L0. rewrite H in H0. rewrite L in L0. cbn in L0. subst. reflexivity.
Qed.
Example C102_nontrivial :
  option_map (fun w => (console w, lines w 0, lines w 1))
    (kpex_run (Some "Info") true [Rule "Command line arguments"; Subproc (Msg "kpex --2.5D" []) "12:00:00"] [Warning (Msg "no schematic" []) "12:00:01"]
      [Debug (Msg "nets" []) "12:00:02"; Subproc (Msg "klayout -b" []) "12:00:03"; Info (Msg "50% done" []) "12:00:04"; Error (Msg "failed" []) "12:00:05"]) =
  Some ([PRule "Command line arguments"; PBare "kpex --2.5D"; PLine "WARNING" "[yellow]no schematic"; PLine "INFO" "50% done"; PLine "ERROR" "[red]failed"],
        ["no schematic"; "50% done"; "failed"],
        ["[12:00:01] [WARNING]    no schematic"; "[12:00:04] [INFO]    50% done"; "[12:00:05] [ERROR]    failed"]).
Proof. vm_compute. reflexivity. Qed.
Example C102_chosen : chooses (Some "Info") "info".
Proof. apply (Word "Info"). vm_compute. intuition. Qed.
Example C102_unknown : forall word, ~ chooses (Some "loud") word.
Proof. intros word C. inversion C as [|s E|s I]; subst; [discriminate E|]. vm_compute in I. intuition discriminate. Qed.

(** ** C103 *)
Lemma quoted_clean s t : clean s -> quoted None (s ++ t)%string = quoted None t.
Proof.
  induction s as [|c s IH]; [reflexivity|]. intros (Q & _ & C). cbn [String.append quoted]. rewrite <- (IH C).
  destruct c as [[] [] [] [] [] [] [] []]; try reflexivity. now destruct Q.
Qed.
Lemma append_assoc a b c : ((a ++ b) ++ c)%string = (a ++ b ++ c)%string.
Proof. induction a as [|x a IH]; cbn; [reflexivity|]. now rewrite IH. Qed.
Lemma quoted_inside s : forall w t, clean s -> quoted (Some w) (s ++ "'" ++ t)%string = (w ++ s)%string :: quoted None t.
Proof.
  induction s as [|c s IH]; intros w t; cbn [clean]; [intros _|intros (Q & _ & C)].
  - cbn. f_equal. induction w as [|x w IHw]; cbn; [reflexivity|]. now rewrite <- IHw.
  - change ((String c s ++ "'" ++ t)%string) with (String c (s ++ "'" ++ t)).
    assert (X : quoted (Some w) (String c (s ++ "'" ++ t)) = quoted (Some (w ++ String c "")%string) (s ++ "'" ++ t)%string).
    { destruct c as [[] [] [] [] [] [] [] []]; try reflexivity. now destruct Q. }
    rewrite X, (IH _ _ C), append_assoc. reflexivity.
Qed.
Lemma quoted_word s t : clean s -> quoted None (in_quotes s ++ t)%string = s :: quoted None t.
Proof. intros C. unfold in_quotes. rewrite !append_assoc. exact (quoted_inside s "" t C). Qed.
(** no closing brace *)
Fixpoint open (s : string) : Prop := match s with "" => True | String c t => c <> "}"%char /\ open t end.
Lemma clean_open s : clean s -> open s.
Proof. induction s as [|c s IH]; cbn; tauto. Qed.
Lemma open_app a b : open a -> open b -> open (a ++ b)%string.
Proof. induction a as [|c a IH]; cbn; tauto. Qed.
Lemma brace_step c t : c <> "}"%char -> before_brace (String c t) = String c (before_brace t) /\ after_brace (String c t) = after_brace t.
Proof. intros N. destruct c as [[] [] [] [] [] [] [] []]; try (split; reflexivity). now destruct N. Qed.
Lemma brace s t : open s -> before_brace (s ++ "}" ++ t)%string = s /\ after_brace (s ++ "}" ++ t)%string = t.
Proof.
  induction s as [|c s IH]; [split; reflexivity|]. intros (N & O). destruct (IH O) as [A B]. change ((String c s ++ "}" ++ t)%string) with (String c (s ++ "}" ++ t)).
  destruct (brace_step c (s ++ "}" ++ t) N) as [-> ->]. now rewrite A, B.
Qed.
Lemma join_quoted l : Forall clean l -> open (join (map in_quotes l)) /\ quoted None (join (map in_quotes l)) = l.
Proof.
  assert (Q : forall s, clean s -> open (in_quotes s)).
  { intros s C. unfold in_quotes. apply open_app; [now split|]. apply open_app; [now apply clean_open|now split]. }
  induction l as [|s l IH]; intros F; [split; [exact I|reflexivity]|]. inversion F as [|? ? C F']; subst. destruct (IH F') as [O E]. destruct l as [|s' l].
  - cbn [map join]. split; [now apply Q|]. assert (X := quoted_word s "" C). assert (Y : forall a, (a ++ "")%string = a) by (induction a as [|x a IHa]; cbn; [reflexivity|now rewrite IHa]).
    rewrite Y in X. exact X.
  - change (join (map in_quotes (s :: s' :: l))) with (in_quotes s ++ ", " ++ join (map in_quotes (s' :: l)))%string. split.
    + apply open_app; [now apply Q|]. apply open_app; [now repeat split|exact O].
    + rewrite (quoted_word s _ C). f_equal. rewrite <- E at 2. exact (quoted_clean ", " _ ltac:(repeat split; discriminate)).
Qed.
(** what a reader finds in a help text *)
Definition listed (e : enum) (lowercase : bool) : list string :=
  map (fun m => canonic_string e lowercase (fst m) (snd m)) (filter (fun m => negb (is_default (fst m))) (members e)).
Definition default_word (e : enum) (lowercase : bool) (d : value) : string :=
  if is_str e then (if lowercase then casefold (str_of d) else str_of d) else casefold (name_of (members e) d).
Lemma help_read topic e b lowercase : clean topic -> Forall clean (listed e lowercase) ->
  (forall d, by_name e "DEFAULT" = Some d -> clean (default_word e lowercase d)) ->
  offered (render_enum_help topic e b lowercase) = listed e lowercase /\
  named_default (render_enum_help topic e b lowercase) = match by_name e "DEFAULT" with Some d => if b then [default_word e lowercase d] else [] | None => [] end.
Proof.
  intros T C D. destruct (join_quoted (listed e lowercase) C) as [O Q].
  assert (X : forall rest, offered (topic ++ " ∈ {" ++ join (map in_quotes (listed e lowercase)) ++ "}" ++ rest)%string = listed e lowercase /\
    named_default (topic ++ " ∈ {" ++ join (map in_quotes (listed e lowercase)) ++ "}" ++ rest)%string = quoted None rest).
  { intros rest. unfold offered, named_default.
    assert (O' : open (topic ++ " ∈ {" ++ join (map in_quotes (listed e lowercase)))%string).
    { apply open_app; [now apply clean_open|]. apply open_app; [cbn; repeat split; discriminate|exact O]. }
    assert (B := brace _ rest O'). rewrite !append_assoc in B. destruct B as [B A]. rewrite B, A. split; [|reflexivity].
    rewrite quoted_clean by exact T. rewrite quoted_clean by (cbn; repeat split; discriminate). exact Q. }
  assert (J : join (map (fun m => in_quotes (canonic_string e lowercase (fst m) (snd m))) (filter (fun m => negb (String.eqb (casefold (fst m)) "default")) (members e))) =
    join (map in_quotes (listed e lowercase))) by (unfold listed; now rewrite map_map).
  unfold render_enum_help. rewrite J. assert (N := X ""). assert (Y : forall a, (a ++ "")%string = a) by (induction a as [|x a IHa]; cbn; [reflexivity|now rewrite IHa]).
  rewrite Y in N. cbn [quoted] in N. destruct (by_name e "DEFAULT") as [d|] eqn:DD; [|exact N]. destruct b; [|exact N]. fold (default_word e lowercase d).
  rewrite !append_assoc. destruct (X ("." ++ nl ++ "Defaults to '" ++ default_word e lowercase d ++ "'")%string) as [A B]. split; [exact A|]. rewrite B.
  change ("." ++ nl ++ "Defaults to '" ++ default_word e lowercase d ++ "'")%string with (("." ++ nl ++ "Defaults to ") ++ in_quotes (default_word e lowercase d))%string.
  rewrite quoted_clean by (cbn; repeat split; discriminate). assert (Z := quoted_word (default_word e lowercase d) "" (D d eq_refl)). rewrite Y in Z. exact Z.
Qed.
Lemma listed_text e : text_enum e -> forall s, In s (listed e false) <-> exists n, In (n, VStr s) (members e) /\ is_default n = false.
Proof.
  intros (S & _ & V & _) s. unfold listed. rewrite in_map_iff. unfold canonic_string. rewrite S. split.
  - intros ((n & v) & E & I). apply filter_In in I. cbn in *. destruct I as [I N]. apply Bool.negb_true_iff in N. unfold is_default in N. rewrite N in E.
    exists n. split; [|exact N]. rewrite Forall_forall in V. specialize (V _ I). cbn in V. destruct v as [x|z]; [|destruct V]. cbn in E. now subst.
  - intros (n & I & N). exists (n, VStr s). cbn. unfold is_default in N. rewrite N. split; [reflexivity|]. apply filter_In. split; [exact I|]. cbn. unfold is_default. now rewrite N.
Qed.
Lemma text_default e d : text_enum e -> by_name e "DEFAULT" = Some d -> exists s, d = VStr s /\ clean s /\ In s (listed e false).
Proof.
  intros T D. assert (I : In ("DEFAULT", d) (members e)) by (now apply dget_In). assert (T' := T). destruct T' as (S & _ & V & A). rewrite Forall_forall in V. specialize (V _ I). cbn in V. destruct d as [s|z]; [|destruct V].
  exists s. split; [reflexivity|]. split; [exact V|]. apply (listed_text e T). destruct (A _ _ I eq_refl) as (_ & n & J & N). now exists n.
Qed.
(** ** C103 *)
(** The help of an option with an enumeration of texts offers exactly the words that the option accepts, and a word gives the case of this value. *)
Theorem C103_offered : forall topic e b default s, clean topic -> text_enum e ->
  (In s (offered (render_enum_help topic e b false)) <-> enum_option e default (Some s) <> None) /\
  (forall v, enum_option e default (Some s) = Some v -> v = VStr s).
Proof.
  intros topic e b default s C T. assert (H : offered (render_enum_help topic e b false) = listed e false).
  { apply help_read; [exact C| |].
    - rewrite Forall_forall. intros x I. apply (listed_text e T) in I. destruct I as (n & I & _). destruct T as (_ & _ & V & _). rewrite Forall_forall in V. exact (V _ I).
    - intros d D. destruct (text_default e d T D) as (x & -> & X & _). unfold default_word. destruct T as (-> & _). exact X. }
  rewrite H, (listed_text e T). unfold enum_option, by_value. split.
  - destruct (existsb (fun m => eqb (snd m) (VStr s)) (members e)) eqn:E.
    + split; [discriminate|intros _]. apply existsb_exists in E. destruct E as ((n & v) & I & Q). apply eqb_eq in Q. cbn in Q. subst v.
      destruct (is_default n) eqn:N; [|now exists n]. destruct T as (_ & _ & _ & A). destruct (A _ _ I N) as (_ & n' & J & M). now exists n'.
    + split; [|intros X; now destruct X]. intros (n & I & _) _. assert (X : existsb (fun m => eqb (snd m) (VStr s)) (members e) = true); [|congruence].
      apply existsb_exists. exists (n, VStr s). split; [exact I|]. cbn [snd]. apply eqb_refl.
  - intros v. destruct (existsb (fun m => eqb (snd m) (VStr s)) (members e)); [intros E; now injection E as <-|discriminate].
Qed.
(** If the help names a default, this is one word, the help offers it, and it is what the option gives if it is left out; if there is a case DEFAULT, the help
    names it (unless it is told not to), and otherwise not. *)
Theorem C103_default : forall topic e b, clean topic -> text_enum e ->
  named_default (render_enum_help topic e b false) =
    match by_name e "DEFAULT" with Some d => if b then [str_of d] else [] | None => [] end /\
  forall d, by_name e "DEFAULT" = Some d -> exists s, d = VStr s /\ In s (offered (render_enum_help topic e b false)) /\ enum_option e (by_name e "DEFAULT") None = Some (VStr s).
Proof.
  intros topic e b C T.
  assert (HR : offered (render_enum_help topic e b false) = listed e false /\
    named_default (render_enum_help topic e b false) = match by_name e "DEFAULT" with Some d => if b then [default_word e false d] else [] | None => [] end).
  { apply help_read; [exact C| |].
    - rewrite Forall_forall. intros x I. apply (listed_text e T) in I. destruct I as (n & I & _). destruct T as (_ & _ & V & _). rewrite Forall_forall in V. exact (V _ I).
    - intros d D. destruct (text_default e d T D) as (x & -> & X & _). unfold default_word. destruct T as (-> & _). exact X. }
  destruct HR as [H R]. split.
  - rewrite R. unfold default_word. destruct T as (-> & _). reflexivity.
  - intros d D. destruct (text_default e d T D) as (s & -> & _ & I). exists s. split; [reflexivity|]. rewrite H. split; [exact I|]. rewrite D. cbn. unfold by_value.
    destruct (existsb (fun m => eqb (snd m) (VStr s)) (members e)) eqn:E; [reflexivity|]. exfalso.
    assert (X : existsb (fun m => eqb (snd m) (VStr s)) (members e) = true); [|congruence]. apply existsb_exists. exists ("DEFAULT", VStr s). split; [now apply dget_In|]. cbn [snd]. apply eqb_refl.
Qed.
(** The options of kpex are of this kind *)
Ltac text_enum_tac :=
  split; [reflexivity|]; split; [repeat constructor; cbn; intuition discriminate|]; split;
    [repeat constructor; cbn; repeat split; discriminate|];
    cbn; intros n v I D; repeat (destruct I as [I|I]; [injection I as <- <-; first [discriminate D | split; [reflexivity|]; eexists; split; [left; reflexivity|reflexivity]]|]); destruct I.
Lemma kpex_enums : Forall text_enum [PDK; PEXMode; MagicPEXMode; MagicShortMode; MagicMergeMode].
Proof. repeat (apply Forall_cons; [text_enum_tac|]). apply Forall_nil. Qed.
Theorem C103_kpex : Forall (fun o => let '(topic, e, opt, words, default) := o in let help := render_enum_help topic e true false in
    (forall s : string, (In s (offered help) <-> opt (Some s) <> None) /\ (forall v, opt (Some s) = Some v -> v = VStr s)) /\
    offered help = words /\ named_default help = default /\ opt None = match default with d :: _ => Some (VStr d) | [] => None end)
  [("pdk", PDK, pdk_option, ["ihp_sg13g2"; "sky130A"], []); ("mode", PEXMode, mode_option, ["CC"; "RC"; "R"], ["CC"]);
   ("magic_mode", MagicPEXMode, magic_mode_option, ["CC"; "RC"; "R"], ["CC"]); ("magic_short", MagicShortMode, magic_short_option, ["none"; "resistor"; "voltage"], ["none"]);
   ("magic_merge", MagicMergeMode, magic_merge_option, ["none"; "conservative"; "aggressive"], ["none"])].
Proof.
  assert (K := kpex_enums). rewrite Forall_forall in K.
  repeat (apply Forall_cons; [split; [intros s; apply C103_offered; [cbn; repeat split; discriminate|apply K; cbn; tauto]|vm_compute; repeat split]|]). apply Forall_nil.
Qed.
(** --log_level of kpex: each word that the help offers is accepted, in large or small letters, and gives the level of this name; besides these only "default" is. *)
Theorem C103_log_level : forall s, let help := render_enum_help "log_level" LogLevel true false in
  (kpex_log_level (Some s) <> None <-> In (casefold s) (offered help) \/ casefold s = "default") /\
  offered help = level_words /\ named_default help = ["subprocess"] /\ kpex_log_level None = kpex_log_level (Some "subprocess") /\
  kpex_log_level (Some "default") = kpex_log_level (Some "subprocess") /\
  (forall s', In (casefold s) (offered help) -> kpex_log_level (Some s') = kpex_log_level (Some s) -> casefold s' = casefold s \/ casefold s' = "default").
Proof.
  intros s help. assert (H : offered help = level_words) by (vm_compute; reflexivity).
  assert (K : forall s, kpex_log_level (Some s) <> None <-> In (casefold s) level_words \/ casefold s = "default").
  { clear. intros s. unfold kpex_log_level, by_name. split.
    - intros N. destruct (in_dec string_dec (upper s) (dkeys (members LogLevel))) as [I|I].
      + cbn in I. assert (Q := lower_upper s). repeat (destruct I as [E|I]; [rewrite <- E in Q; rewrite <- Q; cbn; now intuition|]). destruct I.
      + apply dget_None in I. now destruct N.
    - intros [I|E].
      + rewrite upper_lower. cbn in I. repeat (destruct I as [<- |I]; [vm_compute; discriminate|]). destruct I.
      + rewrite upper_lower, E. vm_compute. discriminate. }
  rewrite H. split; [apply K|]. split; [reflexivity|]. split; [vm_compute; reflexivity|]. split; [reflexivity|]. split; [reflexivity|].
  intros s' I E. assert (N : kpex_log_level (Some s') <> None) by (rewrite E; apply K; now left). apply K in N. destruct N as [N|N]; [left|now right].
  unfold kpex_log_level in E. rewrite (upper_lower s), (upper_lower s') in E. cbn in I, N.
  repeat (destruct I as [I|I]; [rewrite <- I in E |- *; repeat (destruct N as [N|N]; [rewrite <- N in E |- *; first [reflexivity | vm_compute in E; discriminate E]|]); destruct N|]). destruct I.
Qed.
(** Refuted for the netlist program: its help offers the levels, but --log_level accepts no word at all. *)
Theorem C103_netlist_refuted : forall s, In "debug" (offered (render_enum_help "log_level" LogLevel true false)) /\ netlist_log_level (Some s) = None.
Proof. intros s. split; [vm_compute; intuition|]. reflexivity. Qed.
(** Without the option the netlist program has the level that kpex has. *)
Theorem C103_netlist_default : netlist_log_level None = kpex_log_level None /\ kpex_log_level None <> None.
Proof. split; [reflexivity|discriminate]. Qed.
(** Refuted for a help in small letters: the help for --mode would offer words that the option refuses. *)
Theorem C103_lowercase_refuted : exists topic e s, clean topic /\ text_enum e /\ In s (offered (render_enum_help topic e true true)) /\ enum_option e (by_name e "DEFAULT") (Some s) = None.
Proof.
  exists "mode", PEXMode, "cc". split; [cbn; repeat split; discriminate|]. split; [assert (K := kpex_enums); inversion K as [|? ? _ K']; now inversion K'|]. split; [vm_compute; now left|vm_compute; reflexivity].
Qed.
Example C103_nontrivial : offered (render_enum_help "mode" PEXMode true false) = ["CC"; "RC"; "R"] /\ named_default (render_enum_help "mode" PEXMode true false) = ["CC"] /\
  mode_option (Some "RC") = Some (VStr "RC") /\ mode_option (Some "rc") = None /\ mode_option None = Some (VStr "CC").
Proof. vm_compute. repeat split. Qed.
Example percent_example : percent "a %s b %% %s" ["x"; "y"] = Some "a x b % y" /\ percent "a %s" [] = None /\ percent "a" ["x"] = None.
Proof. repeat split. Qed.

Print Assumptions C102_level.
Print Assumptions C102_all.
Print Assumptions C102_refused.
Print Assumptions C102_all_refuted.
Print Assumptions C102_rule_refuted.
Print Assumptions C102_diel_refuted.
Print Assumptions C103_offered.
Print Assumptions C103_default.
Print Assumptions C103_kpex.
Print Assumptions C103_log_level.
Print Assumptions C103_netlist_default.
Print Assumptions C103_netlist_refuted.
Print Assumptions C103_lowercase_refuted.
