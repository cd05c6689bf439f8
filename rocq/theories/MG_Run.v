From Coq Require Import String Ascii ZArith QArith Qcanon Lia DecimalString Decimal DecimalZ DecimalPos DecimalFacts Permutation.
From Verif Require Import PyBase PyLib PyStr PyRe MG_Model MG_Spec MG_Proofs.
Local Open Scope string_scope.

(** * Files as Magic writes them *)
Lemma dec_integer z : integer (dec z) z.
Proof.
  exists (Z.to_int z). split; [|symmetry; apply DecimalZ.of_to]. unfold dec. apply NilZero.isi.
  - destruct z; cbn; try discriminate. intros [= E]. now apply (DecimalPos.Unsigned.to_uint_nonnil p).
  - destruct z; cbn; try discriminate. intros [= E]. now apply (DecimalPos.Unsigned.to_uint_nonnil p).
Qed.
Lemma dec_natural z : (0 <= z)%Z -> natural (dec z) z.
Proof.
  intros H. exists (match Z.to_int z with Pos d => d | Neg d => d end). unfold dec. destruct z as [|p|p]; [split; reflexivity| |lia].
  cbn [Z.to_int NilZero.string_of_int]. split.
  - apply NilZero.usu. apply DecimalPos.Unsigned.to_uint_nonnil.
  - symmetry. exact (DecimalZ.of_to (Zpos p)).
Qed.
Lemma int_notnl s z : integer s z -> one_line s.
Proof.
  intros H. apply integer_chars in H. revert H. apply all_chars_impl. intros c. now destruct c as [[] [] [] [] [] [] [] []].
Qed.
Lemma dec_line z : all_chars notnl (dec z) = true.
Proof. exact (int_notnl _ _ (dec_integer z)). Qed.
Lemma word_notnl s : word s -> all_chars notnl s = true.
Proof. intros [_ H]. revert H. apply all_chars_impl. intros c. now destruct c as [[] [] [] [] [] [] [] []]. Qed.
Lemma type_word t : In t magic_types -> word t.
Proof. intros H. repeat (destruct H as [<-|H]; [split; [discriminate|reflexivity]|]). destruct H. Qed.

Lemma entry_port nr p : entry_ok (EPort nr p) -> port_line (entry_line (EPort nr p)) p.
Proof.
  intros [A B]. exists (dec (Z.of_N nr)), (Z.of_N nr), (dec (p_xb p)), (dec (p_yb p)), (dec (p_xt p)), (dec (p_yt p)).
  split; [reflexivity|]. repeat split; auto using dec_integer; try apply A; try apply B; apply dec_natural; lia.
Qed.
Lemma entry_node s n m : entry_ok (ENode s n m) -> node_line (entry_line (ENode s n m)) n.
Proof.
  intros (A & B & C & D & _). exists (if s then "substrate" else "node"), (dec (n_r n)), (dec (n_c n)), (dec (n_x n)), (dec (n_y n)), m.
  split; [reflexivity|]. split; [destruct s; auto|]. auto 10 using dec_integer, dec_natural.
Qed.
Lemma entry_device d m : entry_ok (EDevice d m) -> device_line (entry_line (EDevice d m)) d.
Proof.
  intros (A & B & _). split; [|exact A]. exists (dec (d_xb d)), (dec (d_yb d)), (dec (d_xt d)), (dec (d_yt d)), m.
  split; [reflexivity|]. auto 10 using dec_integer, type_word.
Qed.
(** the first word of a line *)
Lemma port_starts l p : port_line l p -> starts "port " l.
Proof. intros (? & ? & ? & ? & ? & ? & -> & _). eexists; reflexivity. Qed.
Lemma node_starts l p : node_line l p -> starts "node " l \/ starts "substrate " l.
Proof. intros (? & ? & ? & ? & ? & ? & -> & [->| ->] & _); [left|right]; eexists; reflexivity. Qed.
Lemma device_starts l p : device_text l p -> starts "device " l.
Proof. intros (? & ? & ? & ? & ? & -> & _). eexists; reflexivity. Qed.

Lemma trimmed_line c s d : isspace c = false -> last_char (String c s) = Some d -> isspace d = false -> trimmed (String c s) = true.
Proof. intros A B C. unfold trimmed. now rewrite A, B, C. Qed.
Lemma last_app a b d : last_char b = Some d -> last_char (a ++ b) = Some d.
Proof.
  intros H. induction a as [|c a IH]; [exact H|]. cbn [append]. destruct (a ++ b) as [|x t] eqn:E; [|cbn; exact IH].
  destruct a; [cbn in E; subst; discriminate|discriminate].
Qed.
Lemma trimmed_last s : trimmed s = true -> s <> "" -> exists d, last_char s = Some d /\ isspace d = false.
Proof.
  unfold trimmed. intros H N. apply andb_prop in H. destruct H as [_ H]. destruct (last_char s) as [d|] eqn:E.
  - exists d. split; [auto|]. now destruct (isspace d).
  - exfalso. clear - E N. destruct s as [|c s]; [congruence|]. clear N. revert c E. induction s as [|b s IH]; intros c E; [discriminate|]. now apply (IH b).
Qed.
Lemma word_last s : word s -> exists d, last_char s = Some d /\ isspace d = false.
Proof.
  intros [N H]. apply trimmed_last; [|exact N]. apply no_space_trimmed. unfold no_space. revert H. apply all_chars_impl.
  intros c. now destruct c as [[] [] [] [] [] [] [] []].
Qed.
Lemma last_cons c s d : last_char s = Some d -> last_char (String c s) = Some d.
Proof. intros H. exact (last_app (String c "") s d H). Qed.
Ltac lastc H := repeat first [exact H | apply last_cons | apply last_app].

Lemma entry_trimmed e : entry_ok e -> trimmed (entry_line e) = true.
Proof.
  destruct e as [nr p|s n m|d m|l]; cbn [entry_ok entry_line].
  - intros [_ B]. destruct (word_last _ B) as (d & E & S). eapply trimmed_line with (d := d); [reflexivity|lastc E|exact S].
  - intros (_ & _ & _ & _ & _ & T & N). destruct (trimmed_last _ T N) as (d & E & S).
    destruct s; (eapply trimmed_line with (d := d); [reflexivity|lastc E|exact S]).
  - intros (_ & _ & _ & T & N). destruct (trimmed_last _ T N) as (e & E & S).
    eapply trimmed_line with (d := e); [reflexivity|lastc E|exact S].
  - tauto.
Qed.
Lemma entry_oneline e : entry_ok e -> one_line (entry_line e).
Proof.
  unfold one_line. destruct e as [nr p|s n m|d m|l]; cbn [entry_ok entry_line].
  - intros [A B]. unfold quoted. rewrite !all_chars_app. cbn [all_chars append]. rewrite !all_chars_app, !dec_line, (word_notnl _ A), (word_notnl _ B). reflexivity.
  - intros (A & B & _ & _ & M & _). unfold quoted. rewrite !all_chars_app. cbn [all_chars append]. rewrite !all_chars_app, !dec_line, (word_notnl _ A), (word_notnl _ B), M. now destruct s.
  - intros (A & B & M & _). rewrite !all_chars_app, !dec_line, (word_notnl _ (type_word _ A)), (word_notnl _ B), M. reflexivity.
  - tauto.
Qed.
Lemma lines_file es : Forall entry_ok es -> lines (file_of es) = map entry_line es.
Proof.
  unfold lines. induction 1 as [|e es H _ IH]; [reflexivity|]. cbn [file_of map].
  rewrite readlines_line by exact (entry_oneline e H). cbn [map]. rewrite strip_nl, IH. f_equal.
  apply strip_trimmed, entry_trimmed, H.
Qed.
Ltac clash := match goal with
  | H : starts _ _ |- _ => destruct H as [? H]; cbn in H; discriminate H
  end.
Lemma file_picks es : Forall entry_ok es ->
  picks port_line (map entry_line es) (ports_of es) /\ picks node_line (map entry_line es) (nodes_of es) /\
  picks device_line (map entry_line es) (devices_of es) /\ Forall (fun l => ~ unknown_device l) (map entry_line es).
Proof.
  induction 1 as [|e es H _ (Pp & Pn & Pd & F)]; [repeat split; constructor|].
  cbn [map]. unfold ports_of, nodes_of, devices_of in *. cbn [flat_map].
  destruct e as [nr p|s n m|d m|l].
  - split; [apply picks_hit; [now apply entry_port|exact Pp]|].
    split; [apply picks_miss; [|exact Pn]; intros a N; apply node_starts in N; destruct N; clash|].
    split; [apply picks_miss; [|exact Pd]; intros a [N _]; apply device_starts in N; clash|].
    constructor; [|exact F]. intros (a & N & _). apply device_starts in N. clash.
  - split; [apply picks_miss; [|exact Pp]; intros a N; apply port_starts in N; destruct s; clash|].
    split; [apply picks_hit; [now apply entry_node|exact Pn]|].
    split; [apply picks_miss; [|exact Pd]; intros a [N _]; apply device_starts in N; destruct s; clash|].
    constructor; [|exact F]. intros (a & N & _). apply device_starts in N. destruct s; clash.
  - split; [apply picks_miss; [|exact Pp]; intros a N; apply port_starts in N; clash|].
    split; [apply picks_miss; [|exact Pn]; intros a N; apply node_starts in N; destruct N; clash|].
    pose proof (entry_device d m H) as D.
    split; [apply picks_hit; [exact D|exact Pd]|].
    constructor; [|exact F]. intros (a & N & NI). destruct D as [D I]. now rewrite (device_unique _ _ _ N D) in NI.
  - destruct H as (_ & _ & N1 & N2 & N3 & N4). cbn [entry_line].
    split; [apply picks_miss; [|exact Pp]; intros a N; apply port_starts in N; auto|].
    split; [apply picks_miss; [|exact Pn]; intros a N; apply node_starts in N; destruct N; auto|].
    split; [apply picks_miss; [|exact Pd]; intros a [N _]; apply device_starts in N; auto|].
    constructor; [|exact F]. intros (a & N & _). apply device_starts in N. auto.
Qed.
Lemma written es : Forall entry_ok es -> parse_ext (file_of es) = Some (Build_ext (ports_of es) (nodes_of es) (devices_of es)).
Proof. intros H. apply parse_ext_iff. rewrite (lines_file es H). apply file_picks, H. Qed.

(** * File names *)
Lemma PyStr_len (a b : string) : String.length (a ++ b) = (String.length a + String.length b)%nat.
Proof. induction a; cbn; [auto|]. now rewrite IHa. Qed.
Lemma app_inj_r (a b s : string) : a ++ s = b ++ s -> a = b.
Proof.
  revert b. induction a as [|c a IH]; intros [|d b] E; cbn in E.
  - reflexivity.
  - exfalso. apply (f_equal String.length) in E. cbn in E. rewrite PyStr_len in E. lia.
  - exfalso. apply (f_equal String.length) in E. cbn in E. rewrite PyStr_len in E. lia.
  - injection E as -> E. f_equal. auto.
Qed.

Section Lazily.
  Variables (n : string) (P : ascii -> bool) (k : re).
  Definition after (acc : string) (xu : string * string) : list (string * list (string * string) * string) :=
    map (fun '(y, h, v) => (acc ++ fst xu ++ y, (n, acc ++ fst xu) :: h, v)) (rm k (snd xu)).
  Lemma rm_lazy s : rm (Seq (Grp n (Lazy P)) k) s = flat_map (after "") (rev (longest P s)).
  Proof.
    cbn [rm]. induction (rev (longest P s)) as [|[x u] l IH]; [reflexivity|]. cbn [map flat_map]. rewrite IH. reflexivity.
  Qed.
  Lemma after_cons acc c l :
    flat_map (after acc) (map (fun '(x, u) => (String c x, u)) l) = flat_map (after (acc ++ String c "")) l.
  Proof.
    induction l as [|[x u] l IH]; [reflexivity|]. cbn [map flat_map]. rewrite IH. f_equal. unfold after. cbn [fst snd].
    apply map_ext. intros [[y h] v]. now rewrite !str_app_assoc.
  Qed.
  (** the shortest text after which the rest of the pattern matches is taken *)
  Lemma lazy_first x : forall acc u y h v r, all_chars P x = true ->
    (forall a b, x = a ++ b -> b <> "" -> rm k (b ++ u) = []) -> rm k u = (y, h, v) :: r ->
    exists r', flat_map (after acc) (rev (longest P (x ++ u))) = (acc ++ x ++ y, (n, acc ++ x) :: h, v) :: r'.
  Proof.
    induction x as [|c x IH]; intros acc u y h v r Hx N K.
    - assert (E : exists l, rev (longest P ("" ++ u)) = ("", u) :: l).
      { cbn [append]. destruct u as [|c u]; cbn [longest]; [now exists []|]. rewrite rev_unit. eauto. }
      destruct E as [l ->]. cbn [flat_map]. unfold after at 1. cbn [fst snd]. rewrite K. cbn [map app]. eauto.
    - cbn [append longest]. cbn [all_chars] in Hx. apply andb_prop in Hx. destruct Hx as [Hc Hx]. rewrite Hc, rev_unit. cbn [flat_map].
      assert (Z : after acc ("", String c (x ++ u)) = []).
      { unfold after. cbn [fst snd]. change (String c (x ++ u)) with (String c x ++ u). rewrite (N "" (String c x)); [reflexivity|reflexivity|discriminate]. }
      rewrite Z. cbn [app]. rewrite <- map_rev, after_cons.
      destruct (IH (acc ++ String c "") u y h v r Hx) as [r' E]; [|exact K|].
      + intros a b -> Hb. apply (N (String c a) b); auto.
      + rewrite E. exists r'. now rewrite !str_app_assoc.
  Qed.
End Lazily.

Definition tail_re : re := Seq (Opt (Grp "res" (Lit ".res"))) (Lit ".ext").
Lemma tail_none u : ~ starts ".ext" u -> ~ starts ".res.ext" u -> rm tail_re u = [].
Proof.
  intros N1 N2. destruct (rm tail_re u) as [|[[x g] v] r] eqn:E; [reflexivity|]. exfalso.
  assert (H : In (x, g, v) (rm tail_re u)) by (rewrite E; now left).
  apply rm_den in H. destruct H as [-> D]. unfold tail_re in D. cbn [den] in D.
  destruct D as (y & h & z & k & -> & _ & [(h' & _ & -> & _)|[-> _]] & -> & _).
  - apply N2. exists v. reflexivity.
  - apply N1. exists v. reflexivity.
Qed.
Lemma file_match c w g v r : one_line c ->
  (forall a b, c = a ++ b -> b <> "" -> ~ starts ".ext" (b ++ w) /\ ~ starts ".res.ext" (b ++ w)) ->
  rm tail_re w = (v, g, "") :: r -> re_match file_re (c ++ w) = Some (("cell", c) :: g).
Proof.
  intros Hc N K. unfold re_match, file_re. cbn [seqs]. fold tail_re. rewrite rm_lazy.
  destruct (lazy_first "cell" notnl tail_re c "" w v g "" r Hc) as [r' E]; [|exact K|].
  - intros a b H1 H2. destruct (N a b H1 H2). now apply tail_none.
  - now rewrite E.
Qed.
Ltac chew H := repeat match type of H with
  | String _ _ = String _ _ => injection H; clear H; intros H; try (intros ->)
  | ?b ++ _ = String _ _ => is_var b; destruct b as [|? b]; cbn [append] in H
  | String _ _ = _ => discriminate H
  end.
Lemma has_tail part a b : ~ has part (a ++ b) -> forall t, b <> part ++ t.
Proof. intros N t ->. apply N. exists a, t. reflexivity. Qed.
Lemma main_match c : plain_cell c -> re_match file_re (c ++ ".ext") = Some [("cell", c)].
Proof.
  intros (H1 & N1 & N2). apply file_match with (v := ".ext") (r := []); [exact H1| |reflexivity].
  intros a b -> Hb. assert (M := has_tail _ _ _ N1).
  assert (M2 : b <> ".res") by (intros ->; apply N2; now exists a).
  split; intros [t E]; cbn [append] in E.
  - destruct b as [|c0 b]; [congruence|]. cbn [append] in E. injection E as -> E.
    destruct b as [|c1 b]; [discriminate|]. cbn [append] in E. injection E as -> E.
    destruct b as [|c2 b]; [discriminate|]. cbn [append] in E. injection E as -> E.
    destruct b as [|c3 b]; [discriminate|]. cbn [append] in E. injection E as -> E.
    now apply (M b).
  - destruct b as [|c0 b]; [congruence|]. cbn [append] in E. injection E as -> E.
    destruct b as [|c1 b]; [discriminate|]. cbn [append] in E. injection E as -> E.
    destruct b as [|c2 b]; [discriminate|]. cbn [append] in E. injection E as -> E.
    destruct b as [|c3 b]; [discriminate|]. cbn [append] in E. injection E as -> E.
    destruct b as [|c4 b]; [congruence|]. cbn [append] in E. injection E as -> E.
    destruct b as [|c5 b]; [discriminate|]. cbn [append] in E. injection E as -> E.
    destruct b as [|c6 b]; [discriminate|]. cbn [append] in E. injection E as -> E.
    destruct b as [|c7 b]; [discriminate|]. cbn [append] in E. injection E as -> E.
    apply N1. exists (a ++ ".res"), b. now rewrite str_app_assoc.
Qed.
Lemma res_match c : plain_cell c -> re_match file_re (c ++ ".res.ext") = Some [("cell", c); ("res", ".res")].
Proof.
  intros (H1 & N1 & N2). apply file_match with (v := ".res.ext") (r := []); [exact H1| |reflexivity].
  intros a b -> Hb. assert (M := has_tail _ _ _ N1).
  split; intros [t E]; cbn [append] in E.
  - destruct b as [|c0 b]; [congruence|]. cbn [append] in E. injection E as -> E.
    destruct b as [|c1 b]; [discriminate|]. cbn [append] in E. injection E as -> E.
    destruct b as [|c2 b]; [discriminate|]. cbn [append] in E. injection E as -> E.
    destruct b as [|c3 b]; [discriminate|]. cbn [append] in E. injection E as -> E.
    now apply (M b).
  - destruct b as [|c0 b]; [congruence|]. cbn [append] in E. injection E as -> E.
    destruct b as [|c1 b]; [discriminate|]. cbn [append] in E. injection E as -> E.
    destruct b as [|c2 b]; [discriminate|]. cbn [append] in E. injection E as -> E.
    destruct b as [|c3 b]; [discriminate|]. cbn [append] in E. injection E as -> E.
    destruct b as [|c4 b]; [discriminate|]. cbn [append] in E. injection E as -> E.
    destruct b as [|c5 b]; [discriminate|]. cbn [append] in E. injection E as -> E.
    destruct b as [|c6 b]; [discriminate|]. cbn [append] in E. injection E as -> E.
    destruct b as [|c7 b]; [discriminate|]. cbn [append] in E. injection E as -> E.
    apply N1. exists (a ++ ".res"), b. now rewrite str_app_assoc.
Qed.

(** * Sorting the files of a directory *)
Definition plain_name (s : string) : Prop := exists c, plain_cell c /\ (s = c ++ ".ext" \/ s = c ++ ".res.ext").
Lemma main_not_res c d : plain_cell c -> c ++ ".ext" <> d ++ ".res.ext".
Proof.
  intros (_ & _ & N) E. change ".res.ext" with (".res" ++ ".ext") in E. rewrite <- str_app_assoc in E.
  apply app_inj_r in E. apply N. now exists d.
Qed.
Lemma sort_main c t acc : plain_cell c -> sort_file acc (c ++ ".ext", t) = (dset (fst acc) c t, snd acc).
Proof. intros H. unfold sort_file. cbn [fst snd]. now rewrite (main_match c H). Qed.
Lemma sort_res c t acc : plain_cell c -> sort_file acc (c ++ ".res.ext", t) = (fst acc, dset (snd acc) c t).
Proof. intros H. unfold sort_file. cbn [fst snd]. now rewrite (res_match c H). Qed.
Definition filed (L : list (string * string)) (suf : string) (d0 d : dict string string) : Prop :=
  forall c, plain_cell c ->
    (forall t, In (c ++ suf, t) L -> dget d c = Some t) /\ (~ In (c ++ suf) (map fst L) -> dget d c = dget d0 c).
Lemma sort_all L : forall acc, NoDup (map fst L) -> (forall f, In f L -> plain_name (fst f)) ->
  filed L ".ext" (fst acc) (fst (fold_left sort_file L acc)) /\
  filed L ".res.ext" (snd acc) (snd (fold_left sort_file L acc)) /\
  (dwf (fst acc) -> dwf (fst (fold_left sort_file L acc))) /\
  (forall c, In c (dkeys (fst (fold_left sort_file L acc))) -> In c (dkeys (fst acc)) \/ plain_cell c).
Proof.
  induction L as [|[s t] L IH]; intros acc ND PN.
  - cbn. repeat split; intros; try contradiction; auto.
  - cbn [fold_left]. cbn [map fst] in ND. inversion ND as [|? ? NI ND']; subst.
    destruct (PN (s, t) (or_introl eq_refl)) as (c0 & P0 & [E|E]); cbn [fst] in E; subst s.
    + rewrite (sort_main c0 t acc P0). destruct (IH (dset (fst acc) c0 t, snd acc) ND' (fun f I => PN f (or_intror I))) as (A & B & C & D).
      cbn [fst snd] in *. split; [|split; [|split]].
      * intros c P. destruct (A c P) as [A1 A2]. split.
        -- intros u [E|I]; [|auto]. injection E as E ->. apply app_inj_r in E. subst c0. rewrite (A2 NI). apply dget_dset_same.
        -- intros N. cbn [map fst In] in N. rewrite A2 by tauto. apply dget_dset_other. intros ->. tauto.
      * intros c P. destruct (B c P) as [B1 B2]. split.
        -- intros u [E|I]; [|auto]. injection E as E _. exfalso. now apply (main_not_res c0 c P0).
        -- intros N. cbn [map fst In] in N. apply B2. tauto.
      * intros W. apply C. now apply dwf_dset.
      * intros c I. apply D in I. destruct I as [I|I]; [|auto]. apply dkeys_dset_in in I. destruct I as [->|I]; auto.
    + rewrite (sort_res c0 t acc P0). destruct (IH (fst acc, dset (snd acc) c0 t) ND' (fun f I => PN f (or_intror I))) as (A & B & C & D).
      cbn [fst snd] in *. split; [|split; [|split]]; auto.
      * intros c P. destruct (A c P) as [A1 A2]. split.
        -- intros u [E|I]; [|auto]. injection E as E _. exfalso. symmetry in E. now apply (main_not_res c c0 P).
        -- intros N. cbn [map fst In] in N. apply A2. tauto.
      * intros c P. destruct (B c P) as [B1 B2]. split.
        -- intros u [E|I]; [|auto]. injection E as E ->. apply app_inj_r in E. subst c0. rewrite (B2 NI). apply dget_dset_same.
        -- intros N. cbn [map fst In] in N. rewrite B2 by tauto. apply dget_dset_other. intros ->. tauto.
Qed.
Lemma fold_cell_none res M : fold_left (cell_step res) M None = None.
Proof. induction M; cbn; auto. Qed.
Lemma cells_all res M : forall acc, NoDup (map fst M) ->
  (exists cells, fold_left (cell_step res) M (Some acc) = Some cells /\
     (forall c t, In (c, t) M -> exists d, cell_data res c t = Some d /\ dget cells c = Some d) /\
     (forall c, ~ In c (map fst M) -> dget cells c = dget acc c)) \/
  (fold_left (cell_step res) M (Some acc) = None /\ exists c t, In (c, t) M /\ cell_data res c t = None).
Proof.
  induction M as [|[c0 t0] M IH]; intros acc ND.
  - left. exists acc. repeat split; auto. intros c t [].
  - cbn [map fst] in ND. inversion ND as [|? ? NI ND']; subst. cbn [fold_left]. unfold cell_step at 2 4. cbn [fst snd].
    destruct (cell_data res c0 t0) as [d0|] eqn:E.
    + destruct (IH (dset acc c0 d0) ND') as [(cells & F & A & B)|(F & c & t & I & N)].
      * left. exists cells. split; [exact F|]. split.
        -- intros c t [H|I]; [|auto]. injection H as <- <-. exists d0. split; [exact E|]. rewrite (B c0 NI). apply dget_dset_same.
        -- intros c N. cbn [map fst In] in N. rewrite B by tauto. apply dget_dset_other. intros ->. tauto.
      * right. split; [exact F|]. exists c, t. split; [now right|exact N].
    + right. split; [apply fold_cell_none|]. exists c0, t0. split; [now left|exact E].
Qed.

(** * The run directory *)
Lemma ends_with_app suf c : ends_with suf (c ++ suf) = true.
Proof.
  induction c as [|a c IH]; cbn [append].
  - destruct suf; cbn; [reflexivity|]. now rewrite Ascii.eqb_refl, String.eqb_refl.
  - cbn [ends_with]. rewrite IH. apply Bool.orb_true_r.
Qed.
Lemma ext_files_In D f : In f (ext_files D) <-> In f D /\ ends_with ".ext" (fst f) = true.
Proof. unfold ext_files. apply filter_In. Qed.
Lemma NoDup_filter_map D (f : string * string -> bool) : NoDup (map fst D) -> NoDup (map fst (filter f D)).
Proof.
  induction D as [|x D IH]; cbn; [auto|]. intros H. inversion H as [|? ? N H']; subst. destruct (f x); [|auto].
  cbn. constructor; [|auto]. intros I. apply N. apply in_map_iff in I. destruct I as (y & E & I). apply filter_In in I.
  apply in_map_iff. exists y. tauto.
Qed.
Lemma ext_name c (suf : string) D : (suf = ".ext" \/ suf = ".res.ext") ->
  (forall t, In (c ++ suf, t) (ext_files D) <-> In (c ++ suf, t) D) /\ (In (c ++ suf) (map fst (ext_files D)) <-> In (c ++ suf) (map fst D)).
Proof.
  intros S. assert (E : ends_with ".ext" (c ++ suf) = true).
  { destruct S as [->| ->]; [apply ends_with_app|]. change ".res.ext" with (".res" ++ ".ext"). rewrite <- str_app_assoc. apply ends_with_app. }
  assert (A : forall t, In (c ++ suf, t) (ext_files D) <-> In (c ++ suf, t) D) by (intros t; rewrite ext_files_In; cbn [fst]; tauto).
  split; [exact A|]. rewrite !in_map_iff. split; intros ([s t] & Es & I); cbn in Es; subst s; exists (c ++ suf, t); (split; [reflexivity|]); now apply A.
Qed.

(** a directory is good if there is a main file and every file that belongs to a main file can be read *)
Definition good (D : list (string * string)) : Prop :=
  (exists c, plain_cell c /\ In (c ++ ".ext") (map fst D)) /\
  forall c t, plain_cell c -> In (c ++ ".ext", t) D ->
    parse_ext t <> None /\ forall u, In (c ++ ".res.ext", u) D -> parse_res u <> None.
Definition bad (D : list (string * string)) : Prop :=
  (forall c, plain_cell c -> ~ In (c ++ ".ext") (map fst D)) \/
  exists c t, plain_cell c /\ In (c ++ ".ext", t) D /\
    (parse_ext t = None \/ exists u, In (c ++ ".res.ext", u) D /\ parse_res u = None).
Lemma bad_not_good D : bad D -> ~ good D.
Proof.
  intros [H|(c & t & P & I & H)] [(d & Pd & Id) G].
  - now apply (H d Pd).
  - destruct (G c t P I) as [G1 G2]. destruct H as [H|(u & Iu & H)]; [auto|]. now apply (G2 u Iu).
Qed.
Lemma run_spec D : plain_dir D ->
  (exists cells, parse_run D = Some cells /\ good D /\ (forall c, plain_cell c -> expected D c (dget cells c)) /\
     forall c, In c (dkeys cells) -> plain_cell c) \/
  (parse_run D = None /\ bad D).
Proof.
  intros [ND PN]. unfold parse_run.
  assert (ND' : NoDup (map fst (ext_files D))) by now apply NoDup_filter_map.
  assert (PN' : forall f, In f (ext_files D) -> plain_name (fst f)).
  { intros f I. apply ext_files_In in I. destruct I as [I E]. now apply PN. }
  destruct (sort_all (ext_files D) ([], []) ND' PN') as (A & B & W & K). specialize (W (NoDup_nil _)).
  destruct (fold_left sort_file (ext_files D) ([], [])) as [main res]. cbn [fst snd] in *.
  (* what is filed *)
  assert (MI : forall c t, plain_cell c -> (dget main c = Some t <-> In (c ++ ".ext", t) D)).
  { intros c t P. destruct (A c P) as [A1 A2]. destruct (ext_name c ".ext" D (or_introl eq_refl)) as [X1 X2]. split.
    - intros G. destruct (in_dec string_dec (c ++ ".ext") (map fst (ext_files D))) as [I|N].
      + apply in_map_iff in I. destruct I as ([s u] & E & I). cbn in E. subst s. rewrite (A1 u I) in G. injection G as ->. now apply X1.
      + rewrite (A2 N) in G. discriminate.
    - intros I. apply A1. now apply X1. }
  assert (RI : forall c t, plain_cell c -> (dget res c = Some t <-> In (c ++ ".res.ext", t) D)).
  { intros c t P. destruct (B c P) as [B1 B2]. destruct (ext_name c ".res.ext" D (or_intror eq_refl)) as [X1 X2]. split.
    - intros G. destruct (in_dec string_dec (c ++ ".res.ext") (map fst (ext_files D))) as [I|N].
      + apply in_map_iff in I. destruct I as ([s u] & E & I). cbn in E. subst s. rewrite (B1 u I) in G. injection G as ->. now apply X1.
      + rewrite (B2 N) in G. discriminate.
    - intros I. apply B1. now apply X1. }
  assert (KP : forall c, In c (dkeys main) -> plain_cell c) by (intros c I; apply K in I; destruct I as [[]|I]; auto).
  assert (In' : forall s, (exists t, In (s, t) D) <-> In s (map fst D)).
  { intros s. rewrite in_map_iff. split; [intros [t I]; exists (s, t); auto|intros ([s' t] & E & I); cbn in E; subst; eauto]. }
  assert (CD : forall c t d, plain_cell c -> In (c ++ ".ext", t) D -> cell_data res c t = d ->
    match d with
    | Some d => expected D c (Some d) /\ parse_ext t <> None /\ (forall u, In (c ++ ".res.ext", u) D -> parse_res u <> None)
    | None => parse_ext t = None \/ exists u, In (c ++ ".res.ext", u) D /\ parse_res u = None
    end).
  { intros c t d P I E. unfold cell_data in E. destruct (parse_ext t) as [x|] eqn:Ex; [|subst d; now left].
    destruct (dget res c) as [u|] eqn:Er.
    - apply (RI c u P) in Er. destruct (parse_res u) as [y|] eqn:Ey.
      + subst d. split; [|split; [congruence|]].
        * right. exists t, x, (Some y). do 3 (split; [auto|]). right. exists u, y. auto.
        * intros v Iv. apply (RI c v P) in Iv. apply (RI c u P) in Er. rewrite Er in Iv. injection Iv as <-. congruence.
      + subst d. right. eauto.
    - assert (N : forall u, ~ In (c ++ ".res.ext", u) D) by (intros u I'; apply (RI c u P) in I'; congruence).
      subst d. split; [|split; [congruence|]].
      + right. exists t, x, None. do 3 (split; [auto|]). left. split; [auto|]. intros I'. apply In' in I'. destruct I' as [u I']. now apply (N u).
      + intros u I'. now destruct (N u). }
  destruct main as [|m main'].
  - right. split; [reflexivity|]. left. intros c P I. apply In' in I. destruct I as [t I]. apply (MI c t P) in I. discriminate.
  - set (main := (m :: main')%list) in *.
    assert (NE : exists c t, In (c, t) main) by (exists (fst m), (snd m); left; now destruct m). clearbody main.
    destruct (cells_all res main [] W) as [(cells & F & C1 & C2)|(F & c & t & I & N)].
    + left. exists cells. split; [exact F|].
      assert (NK : forall c, ~ In c (dkeys main) -> dget cells c = None) by (intros c N; now rewrite (C2 c N)).
      split; [|split].
      * split.
        -- destruct NE as (c & t & I). assert (P : plain_cell c) by (apply KP; apply (in_map fst) in I; exact I).
           exists c. split; [exact P|]. apply In'. exists t. apply (MI c t P). now apply In_dget.
        -- intros c t P I. assert (G := I). apply (MI c t P) in G. destruct (C1 c t (dget_In _ _ G)) as (d & E & _).
           destruct (CD c t _ P I E) as (_ & H). exact H.
      * intros c P. destruct (dget main c) as [t|] eqn:G.
        -- destruct (C1 c t (dget_In _ _ G)) as (d & E & Ed). rewrite Ed. apply (MI c t P) in G. now destruct (CD c t _ P G E).
        -- rewrite (NK c) by now apply dget_None. left. split; [reflexivity|]. intros I. apply In' in I. destruct I as [t I].
           apply (MI c t P) in I. congruence.
      * intros c I. destruct (in_dec string_dec c (dkeys main)) as [J|N]; [now apply KP|]. apply dkeys_dget in I. destruct I as [d E].
        rewrite (NK c N) in E. discriminate.
    + right. split; [exact F|]. right. assert (P : plain_cell c) by (apply KP; apply (in_map fst) in I; exact I).
      assert (I' : dget main c = Some t) by (apply In_dget; assumption). apply (MI c t P) in I'. exists c, t.
      split; [exact P|]. split; [exact I'|]. exact (CD c t _ P I' N).
Qed.

Lemma good_perm D D' : Permutation D D' -> good D -> good D'.
Proof.
  intros E [(c & P & I) H]. split.
  - exists c. split; [exact P|]. eapply Permutation_in; [apply Permutation_map, E|exact I].
  - intros d t Pd It. assert (It' := Permutation_in _ (Permutation_sym E) It). destruct (H d t Pd It') as [H1 H2].
    split; [exact H1|]. intros u Iu. apply H2. exact (Permutation_in _ (Permutation_sym E) Iu).
Qed.
Lemma plain_perm D D' : Permutation D D' -> plain_dir D -> plain_dir D'.
Proof.
  intros E [N H]. split; [eapply Permutation_NoDup; [apply Permutation_map, E|exact N]|].
  intros f I. apply H. exact (Permutation_in _ (Permutation_sym E) I).
Qed.
Lemma same_file (D : list (string * string)) s t u : NoDup (map fst D) -> In (s, t) D -> In (s, u) D -> t = u.
Proof.
  intros N I J. assert (A : dget D s = Some t) by (apply In_dget; assumption). assert (B : dget D s = Some u) by (apply In_dget; assumption). congruence.
Qed.
Lemma expected_fun (D : list (string * string)) c r1 r2 : NoDup (map fst D) -> expected D c r1 -> expected D c r2 -> r1 = r2.
Proof.
  intros N [[-> A]|(t & x & y & -> & I & X & Y)] [[-> B]|(t' & x' & y' & -> & I' & X' & Y')].
  - reflexivity.
  - exfalso. apply A. apply (in_map fst) in I'. exact I'.
  - exfalso. apply B. apply (in_map fst) in I. exact I.
  - rewrite (same_file D _ _ _ N I I') in X. f_equal.
    assert (y = y').
    { destruct Y as [[-> Y]|(u & z & -> & J & Z)], Y' as [[-> Y']|(u' & z' & -> & J' & Z')]; auto.
      - exfalso. apply Y. apply (in_map fst) in J'. exact J'.
      - exfalso. apply Y'. apply (in_map fst) in J. exact J.
      - rewrite (same_file D _ _ _ N J J') in Z. congruence. }
    congruence.
Qed.
Lemma expected_perm D D' c r : Permutation D D' -> expected D c r -> expected D' c r.
Proof.
  intros E. assert (A : forall f, In f D -> In f D') by (intros f; apply Permutation_in, E).
  assert (B : forall s, In s (map fst D') -> In s (map fst D)) by (intros s; apply Permutation_in, Permutation_map, Permutation_sym, E).
  intros [[-> N]|(t & x & y & -> & I & X & Y)].
  - left. auto.
  - right. exists t, x, y. do 3 (split; [auto|]). destruct Y as [[-> Y]|(u & z & -> & J & Z)]; [left; auto|right; eauto 6].
Qed.
