From Coq Require Import String Ascii ZArith QArith Qcanon Lia DecimalString Decimal DecimalZ DecimalPos DecimalFacts.
From Verif Require Import PyBase PyLib PyStr PyRe MG_Model MG_Spec.
Local Open Scope string_scope.

(** * Numbers *)
Lemma uint_of_char_digit c d : uint_of_char c (Some d) <> None <-> isdigit c = true.
Proof.
  destruct c as [[] [] [] [] [] [] [] []]; split; intros H; try reflexivity; try discriminate; exfalso; now apply H.
Qed.
Lemma uint_digits s : NilEmpty.uint_of_string s <> None <-> all_chars isdigit s = true.
Proof.
  induction s as [|c s IH]; cbn [NilEmpty.uint_of_string all_chars]; [split; congruence|].
  destruct (NilEmpty.uint_of_string s) as [d|].
  - rewrite uint_of_char_digit. split; intros H.
    + rewrite H. cbn. apply IH. discriminate.
    + now apply andb_prop in H.
  - split; [intros H; now destruct H|]. intros H. apply andb_prop in H. destruct H as [_ H]. apply IH in H. congruence.
Qed.
Lemma natural_iff s : (exists z, natural s z) <-> s <> "" /\ all_chars isdigit s = true.
Proof.
  unfold natural, NilZero.uint_of_string. destruct s as [|c s].
  - split; [intros (z & d & H & _); discriminate|intros [H _]; congruence].
  - rewrite <- uint_digits. destruct (NilEmpty.uint_of_string (String c s)) as [d|].
    + split; [intros _; split; congruence|]. intros _. exists (Z.of_uint d), d. auto.
    + split; [intros (z & d & H & _); discriminate|]. intros [_ H]. congruence.
Qed.
Lemma natural_fun s a b : natural s a -> natural s b -> a = b.
Proof. intros (d & H1 & ->) (e & H2 & ->). congruence. Qed.
Lemma integer_fun s a b : integer s a -> integer s b -> a = b.
Proof. intros (d & H1 & ->) (e & H2 & ->). congruence. Qed.
Lemma integer_iff s : (exists z, integer s z) <->
  exists a b, s = a ++ b /\ (a = "-" \/ a = "") /\ b <> "" /\ all_chars isdigit b = true.
Proof.
  unfold integer, NilZero.int_of_string. split.
  - intros (z & d & H & _). destruct s as [|c s]; [discriminate|]. destruct (Ascii.eqb_spec c "-"%char) as [->|N].
    + exists "-", s. split; [reflexivity|]. split; [auto|]. apply natural_iff.
      destruct (NilZero.uint_of_string s) as [e|] eqn:E; [|discriminate]. exists (Z.of_uint e), e. auto.
    + exists "", (String c s). split; [reflexivity|]. split; [auto|]. apply natural_iff.
      destruct (NilZero.uint_of_string (String c s)) as [e|] eqn:E; [|discriminate]. exists (Z.of_uint e), e. auto.
  - intros (a & b & -> & Ha & Hb). destruct (proj2 (natural_iff b) Hb) as (z & d & E & _). destruct Ha as [->| ->].
    + cbn [append]. cbn. rewrite E. cbn. eauto.
    + cbn [append]. destruct b as [|c b]; [destruct Hb; congruence|]. destruct (Ascii.eqb_spec c "-"%char) as [->|N].
      * destruct Hb as [_ Hb]. discriminate.
      * rewrite E. cbn. eauto.
Qed.
Lemma py_int_iff s z : py_int s = Some z <-> integer s z.
Proof.
  unfold py_int, integer. destruct (NilZero.int_of_string s) as [d|]; cbn.
  - split; [intros [= <-]; eauto|intros (e & [= ->] & ->); auto].
  - split; [discriminate|intros (e & H & _); discriminate].
Qed.
Lemma natural_integer s z : natural s z -> integer s z.
Proof.
  intros H. assert (G := proj1 (natural_iff s) (ex_intro _ z H)). destruct H as (d & E & ->). destruct G as [G1 G2].
  exists (Pos d). split; [|reflexivity]. unfold NilZero.int_of_string. destruct s as [|c s]; [congruence|].
  destruct (Ascii.eqb_spec c "-"%char) as [->|N]; [discriminate|]. now rewrite E.
Qed.

(** * The fields of a pattern *)
Lemma den_nat n x g u : den (r_nat n) x g u <-> g = [(n, x)] /\ exists z, natural x z.
Proof.
  unfold r_nat. cbn [den]. rewrite natural_iff. split.
  - intros (h & -> & H1 & H2 & ->). auto.
  - intros (-> & H1 & H2). exists []. auto.
Qed.
Lemma den_word n x g u : den (r_word n) x g u <-> g = [(n, x)] /\ word x.
Proof.
  unfold r_word, word. cbn [den]. split.
  - intros (h & -> & H1 & H2 & ->). auto.
  - intros (-> & H1 & H2). exists []. auto.
Qed.
Lemma isname_swap c : isname c = isword c || Ascii.eqb c "."%char || Ascii.eqb c "\"%char.
Proof. unfold isname. rewrite <- !Bool.orb_assoc. f_equal. apply Bool.orb_comm. Qed.
Lemma all_chars_ext P Q s : (forall c, P c = Q c) -> all_chars P s = all_chars Q s.
Proof. intros H. induction s; cbn; [auto|]. now rewrite H, IHs. Qed.
Lemma den_name n x g u : den (r_name_ n) x g u <-> g = [(n, x)] /\ dotted x.
Proof.
  unfold r_name_, dotted. rewrite <- (all_chars_ext _ _ x isname_swap). cbn [den]. split.
  - intros (h & -> & H1 & H2 & ->). auto.
  - intros (-> & H1 & H2). exists []. auto.
Qed.
Lemma den_int n x g u : den (r_int n) x g u <-> g = [(n, x)] /\ exists z, integer x z.
Proof.
  unfold r_int. cbn [den]. rewrite integer_iff. split.
  - intros (h & -> & a & h1 & b & h2 & -> & -> & [[-> ->]|[-> ->]] & H1 & H2 & ->); split; try reflexivity.
    + exists "-", b. auto.
    + exists "", b. auto.
  - intros (-> & a & b & -> & Ha & H1 & H2). exists []. split; [reflexivity|]. exists a, [], b, [].
    do 2 (split; [reflexivity|]). split; [destruct Ha as [->| ->]; auto|]. auto.
Qed.
Lemma den_seq a b x g u : den (Seq a b) x g u <-> exists y h z k, x = y ++ z /\ g = (h ++ k)%list /\ den a y h (z ++ u) /\ den b z k u.
Proof. reflexivity. Qed.
Lemma den_lit p x g u : den (Lit p) x g u <-> x = p /\ g = [].
Proof. reflexivity. Qed.
Lemma den_end x g u : den End x g u <-> x = "" /\ g = [] /\ (u = "" \/ u = String nl "").
Proof. reflexivity. Qed.
Lemma den_star P x g u : den (Star P) x g u <-> all_chars P x = true /\ g = [].
Proof. reflexivity. Qed.
Lemma den_alt a b x g u : den (Alt a b) x g u <-> den a x g u \/ den b x g u.
Proof. reflexivity. Qed.

(** the end of a line that has no newline *)
Lemma no_nl x : one_line (x ++ String nl "") -> False.
Proof. unfold one_line. rewrite all_chars_app. cbn. now rewrite Bool.andb_false_r. Qed.

Ltac rd :=
  repeat match goal with
  | H : den (Seq _ _) _ _ _ |- _ => apply (proj1 (den_seq _ _ _ _ _)) in H; destruct H as (? & ? & ? & ? & ? & ? & ? & ?)
  | H : den (Lit _) _ _ _ |- _ => apply (proj1 (den_lit _ _ _ _)) in H; destruct H as [? ?]
  | H : den End _ _ _ |- _ => apply (proj1 (den_end _ _ _)) in H; destruct H as (? & ? & ?)
  | H : den (Star _) _ _ _ |- _ => apply (proj1 (den_star _ _ _ _)) in H; destruct H as [? ?]
  | H : den (r_int _) _ _ _ |- _ => apply (proj1 (den_int _ _ _ _)) in H; destruct H as (? & ? & ?)
  | H : den (r_nat _) _ _ _ |- _ => apply (proj1 (den_nat _ _ _ _)) in H; destruct H as (? & ? & ?)
  | H : den (r_word _) _ _ _ |- _ => apply (proj1 (den_word _ _ _ _)) in H; destruct H as [? ?]
  | H : den (r_name_ _) _ _ _ |- _ => apply (proj1 (den_name _ _ _ _)) in H; destruct H as [? ?]
  end; subst.
Ltac flat := unfold quoted, quote; cbn [append]; repeat rewrite ?str_app_assoc, ?str_app_nil; cbn [append]; rewrite ?str_app_nil.

Lemma line_port_sound l g : one_line l -> re_match port_re l = Some g ->
  exists p, port_line l p /\ line_port l = Some (Some p).
Proof.
  intros H1 E. unfold line_port. rewrite E. apply re_match_sound in E. destruct E as (x & u & -> & D).
  unfold port_re, sp in D. cbn [seqs] in D. rd.
  match goal with H : _ = "" \/ _ = _ |- _ => destruct H as [->| ->]; [|exfalso; revert H1; apply no_nl] end.
  unfold gint, grp. cbn -[py_int].
  repeat match goal with H : integer ?s ?z |- _ => rewrite (proj2 (py_int_iff s z) H); revert H end. intros.
  eexists. split; [|reflexivity]. unfold port_line. cbn [p_net p_layer p_xb p_yb p_xt p_yt].
  do 6 eexists. split; [|intuition eauto].
  flat. reflexivity.
Qed.
Ltac ints := repeat match goal with H : integer ?s ?z |- _ => rewrite (proj2 (py_int_iff s z) H); revert H end; intros.
Ltac nats := repeat match goal with H : natural ?s ?z |- _ => rewrite (proj2 (py_int_iff s z) (natural_integer _ _ H)); revert H end; intros.
Ltac at_end H1 := match goal with H : _ = "" \/ _ = _ |- _ => destruct H as [->| ->]; [|exfalso; revert H1; apply no_nl] end.

Lemma line_node_sound l g : one_line l -> re_match node_re l = Some g ->
  exists p, node_line l p /\ line_node l = Some (Some p).
Proof.
  intros H1 E. unfold line_node. rewrite E. apply re_match_sound in E. destruct E as (x & u & -> & D).
  unfold node_re, sp in D. cbn [seqs] in D. rd.
  match goal with H : den (Alt _ _) ?k ?h _ |- _ =>
    assert (K : (k = "node" \/ k = "substrate") /\ h = []) by (destruct H as [H|H]; cbn in H; intuition); clear H end.
  destruct K as [K ->].
  at_end H1. unfold gint, grp. cbn -[py_int]. ints. nats.
  eexists. split; [|reflexivity]. unfold node_line. cbn [n_net n_layer n_r n_c n_x n_y].
  match type of K with ?k = _ \/ _ => exists k end. do 5 eexists. split; [|split; [exact K|intuition eauto]].
  flat. reflexivity.
Qed.
Lemma device_types_In t : existsb (String.eqb t) device_types = true <-> In t magic_types.
Proof.
  assert (E : In t device_types <-> In t magic_types) by (cbn; tauto). rewrite <- E, existsb_exists. split.
  - intros (y & H & Q). apply String.eqb_eq in Q. now subst.
  - intros H. exists t. now rewrite String.eqb_refl.
Qed.
Lemma line_device_sound l g : one_line l -> re_match device_re l = Some g ->
  exists p, device_text l p /\ line_device l = if existsb (String.eqb (d_type p)) device_types then Some (Some p) else None.
Proof.
  intros H1 E. unfold line_device. rewrite E. apply re_match_sound in E. destruct E as (x & u & -> & D).
  unfold device_re, sp in D. cbn [seqs] in D. rd.
  at_end H1. unfold gint, grp. cbn -[py_int device_types existsb]. ints.
  eexists. split; [|match goal with |- context [String.eqb ?t] => instantiate (1 := Build_device t _ _ _ _ _) end; cbn [d_type];
    now destruct (existsb _ _)].
  unfold device_text. cbn [d_type d_model d_xb d_yb d_xt d_yt].
  do 5 eexists. split; [|intuition eauto].
  flat. reflexivity.
Qed.
Lemma line_rnode_sound l g : one_line l -> re_match rnode_re l = Some g ->
  exists p, rnode_line l p /\ line_rnode l = Some (Some p).
Proof.
  intros H1 E. unfold line_rnode. rewrite E. apply re_match_sound in E. destruct E as (x & u & -> & D).
  unfold rnode_re, sp in D. cbn [seqs] in D. rd.
  at_end H1. unfold gint, grp. cbn -[py_int]. ints.
  eexists. split; [|reflexivity]. unfold rnode_line. cbn [r_name r_r r_c r_x r_y].
  do 4 eexists. split; [|intuition eauto].
  flat. reflexivity.
Qed.

(** the other direction: every such line is matched *)
Lemma den_one r l g : den r l g "" -> re_match r l <> None.
Proof. intros D E. apply (re_match_none r l E l "" g); [now rewrite str_app_nil|auto]. Qed.
Ltac piece := first
  [ apply (proj2 (den_lit _ _ _ _)); split; reflexivity
  | apply (proj2 (den_int _ _ _ _)); split; [reflexivity|eauto]
  | apply (proj2 (den_nat _ _ _ _)); split; [reflexivity|eauto]
  | apply (proj2 (den_word _ _ _ _)); split; [reflexivity|assumption]
  | apply (proj2 (den_name _ _ _ _)); split; [reflexivity|assumption]
  | apply (proj2 (den_end _ _ _)); repeat split; left; reflexivity ].
Lemma den_cons a b y h z k : den a y h z -> den b z k "" -> den (Seq a b) (y ++ z) (h ++ k)%list "".
Proof. intros Ha Hb. cbn [den]. exists y, h, z, k. do 2 (split; [reflexivity|]). now rewrite str_app_nil. Qed.
Lemma den_last a y h : den a y h "" -> den (Seq a End) y h "".
Proof. intros Ha. cbn [den]. exists y, h, "", [].
  split; [now rewrite str_app_nil|]. split; [now rewrite app_nil_r|]. split; [exact Ha|]. auto.
Qed.
Ltac build := repeat (eapply den_cons; [piece|]); try (eapply den_last; piece).

Lemma line_port_complete l p : port_line l p -> re_match port_re l <> None.
Proof.
  intros (nr & k & x1 & y1 & x2 & y2 & -> & H).
  replace ("port " ++ _) with (("port " ++ quote) ++ p_net p ++ (quote ++ " ") ++ nr ++ " " ++ x1 ++ " " ++ y1 ++ " " ++ x2 ++ " " ++ y2 ++ " " ++ p_layer p)
    by (flat; reflexivity).
  decompose [and] H. eapply den_one. unfold port_re, sp. cbn [seqs]. build.
Qed.
Lemma line_node_complete l p : one_line l -> node_line l p -> re_match node_re l <> None.
Proof.
  intros H1 (kind & r & c & x & y & more & -> & K & H).
  assert (M : one_line more).
  { unfold one_line in *. rewrite !all_chars_app in H1. repeat (apply andb_prop in H1; destruct H1 as [_ H1]). exact H1. }
  clear H1.
  replace (kind ++ _) with (kind ++ (" " ++ quote) ++ n_net p ++ (quote ++ " ") ++ r ++ " " ++ c ++ " " ++ x ++ " " ++ y ++ " " ++ n_layer p ++ " " ++ more)
    by (flat; reflexivity).
  decompose [and] H. eapply den_one. unfold node_re, sp. cbn [seqs].
  eapply den_cons with (h := []); [destruct K as [->| ->]; cbn; auto|]. build.
  eapply den_last. cbn. auto.
Qed.
Lemma line_device_complete l p : one_line l -> device_text l p -> re_match device_re l <> None.
Proof.
  intros H1 (x1 & y1 & x2 & y2 & more & -> & H).
  assert (M : one_line more).
  { unfold one_line in *. rewrite !all_chars_app in H1. repeat (apply andb_prop in H1; destruct H1 as [_ H1]). exact H1. }
  clear H1. decompose [and] H. eapply den_one. unfold device_re, sp. cbn [seqs]. build.
  eapply den_last. cbn. auto.
Qed.
Lemma line_rnode_complete l p : rnode_line l p -> re_match rnode_re l <> None.
Proof.
  intros (r & c & x & y & -> & H).
  replace ("rnode " ++ _) with (("rnode " ++ quote) ++ r_name p ++ (quote ++ " ") ++ r ++ " " ++ c ++ " " ++ x ++ " " ++ y ++ " 0")
    by (flat; reflexivity).
  decompose [and] H. eapply den_one. unfold rnode_re, sp. cbn [seqs]. build.
Qed.

(** * Decimal numbers *)
Definition nodot (c : ascii) : bool := negb (Ascii.eqb c "."%char).
Lemma digit_nodot s : all_chars isdigit s = true -> all_chars nodot s = true.
Proof. apply all_chars_impl. intros c. now destruct c as [[] [] [] [] [] [] [] []]. Qed.
Lemma natural_digits s k : natural s k -> all_chars isdigit s = true /\ s <> "".
Proof. intros H. destruct (proj1 (natural_iff s) (ex_intro _ k H)). auto. Qed.
Lemma join2 sep a b : a ++ String sep b = join sep [a; b].
Proof. reflexivity. Qed.
Lemma split_on_join sep s : s = join sep (split_on sep s).
Proof.
  induction s as [|c s IH]; [reflexivity|]. cbn [split_on]. destruct (Ascii.eqb_spec c sep) as [->|N].
  - destruct (split_on sep s) as [|x r] eqn:E; [destruct s; cbn in E; [discriminate|destruct (Ascii.eqb a sep); [discriminate|destruct (split_on sep s); discriminate]]|].
    cbn [join append]. now rewrite IH at 1.
  - destruct (split_on sep s) as [|x r] eqn:E.
    + rewrite IH. reflexivity.
    + rewrite IH at 1. now destruct r.
Qed.
Lemma py_ufloat_iff s q : py_ufloat s = Some q <-> magnitude s q.
Proof.
  unfold py_ufloat, magnitude. split.
  - intros H. pose proof (split_on_join "."%char s) as E.
    destruct (split_on "."%char s) as [|a [|b [|c r]]]; try discriminate; cbn [join] in E.
    + exists a, "". destruct (NilZero.uint_of_string (a ++ "")) as [d|] eqn:Ed; [|discriminate]. injection H as <-.
      exists (Z.of_uint d). split; [auto|]. split; [exists d; auto|reflexivity].
    + exists a, b. destruct (NilZero.uint_of_string (a ++ b)) as [d|] eqn:Ed; [|discriminate]. injection H as <-.
      exists (Z.of_uint d). split; [auto|]. split; [exists d; auto|reflexivity].
  - intros (a & b & k & Hs & Hk & ->). pose proof (natural_digits _ _ Hk) as [Hd _].
    rewrite all_chars_app in Hd. apply andb_prop in Hd. destruct Hd as [Ha Hb]. destruct Hk as (d & Ed & ->).
    destruct Hs as [->|[-> ->]].
    + change (a ++ "." ++ b) with (a ++ String "."%char b).
      rewrite (split_on_app "."%char a b (digit_nodot _ Ha)), (split_on_none "."%char b (digit_nodot _ Hb)).
      now rewrite Ed.
    + rewrite (split_on_none "."%char a (digit_nodot _ Ha)). now rewrite Ed.
Qed.
Lemma magnitude_text s q : magnitude s q -> s <> "" /\ all_chars isnumeral s = true /\ forall t, s <> "-" ++ t.
Proof.
  intros (a & b & k & Hs & Hk & _). destruct (natural_digits _ _ Hk) as [Hd N].
  rewrite all_chars_app in Hd. apply andb_prop in Hd. destruct Hd as [Ha Hb].
  assert (D : forall x, all_chars isdigit x = true -> all_chars isnumeral x = true).
  { intros x. apply all_chars_impl. intros c E. unfold isnumeral. now rewrite E. }
  assert (M : forall t y, all_chars isdigit y = true -> y ++ t <> "-" ++ t -> True) by auto.
  destruct Hs as [->|[-> ->]].
  - split; [destruct a; discriminate|]. split.
    + rewrite all_chars_app, (D _ Ha). cbn [append all_chars]. now rewrite (D _ Hb).
    + intros t E. destruct a as [|c a]; cbn in E; injection E as E _; [discriminate|]. subst c. discriminate Ha.
  - rewrite str_app_nil in N. split; [exact N|]. split; [auto|].
    intros t E. destruct a as [|c a]; [discriminate|]. injection E as E _. subst c. discriminate Ha.
Qed.
Lemma py_float_iff s q : py_float s = Some q <-> decimal s q.
Proof.
  unfold decimal. split.
  - unfold py_float. destruct s as [|c t]; [discriminate|]. destruct (Ascii.eqb_spec c "-"%char) as [->|N].
    + destruct (py_ufloat t) as [r|] eqn:E; [|discriminate]. intros [= <-]. right. exists t. split; [reflexivity|].
      apply py_ufloat_iff. rewrite E. f_equal. ring.
    + intros H. left. now apply py_ufloat_iff.
  - intros [H|(t & -> & H)].
    + destruct (magnitude_text _ _ H) as (N & _ & M). unfold py_float. destruct s as [|c t]; [congruence|].
      destruct (Ascii.eqb_spec c "-"%char) as [->|_]; [now destruct (M t)|]. now apply py_ufloat_iff.
    + cbn. apply py_ufloat_iff in H. rewrite H. cbn. f_equal. ring.
Qed.
Lemma decimal_fun s a b : decimal s a -> decimal s b -> a = b.
Proof. rewrite <- !py_float_iff. congruence. Qed.
Lemma decimal_text s q : decimal s q -> exists a b, s = a ++ b /\ (a = "-" \/ a = "") /\ b <> "" /\ all_chars isnumeral b = true.
Proof.
  intros [H|(t & -> & H)]; destruct (magnitude_text _ _ H) as (N & D & _).
  - exists "", s. auto.
  - exists "-", t. auto.
Qed.

(** * Resistors *)
Definition resist_text (l n1 n2 v : string) : Prop :=
  l = "resist " ++ quoted n1 ++ " " ++ quoted n2 ++ " " ++ v /\ dotted n1 /\ dotted n2 /\
  exists a b, v = a ++ b /\ (a = "-" \/ a = "") /\ b <> "" /\ all_chars isnumeral b = true.
Lemma line_resistor_sound l g : one_line l -> re_match resist_re l = Some g ->
  exists n1 n2 v, resist_text l n1 n2 v /\
    line_resistor l = match py_float v with Some q => Some (Some (Build_resistor n1 n2 q)) | None => None end.
Proof.
  intros H1 E. unfold line_resistor. rewrite E. apply re_match_sound in E. destruct E as (x & u & -> & D).
  unfold resist_re, sp in D. cbn [seqs] in D. rd.
  match goal with H : den (Grp _ _) ?v ?g _ |- _ =>
    assert (K : g = [("value", v)] /\ exists a b, v = a ++ b /\ (a = "-" \/ a = "") /\ b <> "" /\ all_chars isnumeral b = true);
    [ cbn [den] in H; destruct H as (h & -> & a & h1 & b & h2 & -> & -> & [[-> ->]|[-> ->]] & B1 & B2 & ->);
      (split; [reflexivity|]); [exists "-", b|exists "", b]; auto | clear H; destruct K as [-> K] ] end.
  at_end H1. unfold grp. cbn -[py_float].
  do 3 eexists. split; [|reflexivity]. unfold resist_text. split; [|intuition eauto].
  flat. reflexivity.
Qed.
Lemma line_resistor_complete l n1 n2 v : resist_text l n1 n2 v -> re_match resist_re l <> None.
Proof.
  intros (-> & H1 & H2 & a & b & -> & Ha & B1 & B2).
  replace ("resist " ++ _) with (("resist " ++ quote) ++ n1 ++ (quote ++ " " ++ quote) ++ n2 ++ (quote ++ " ") ++ a ++ b)
    by (flat; reflexivity).
  eapply den_one. unfold resist_re. cbn [seqs]. build.
  eapply den_last with (h := [("value", a ++ b)]). cbn [den]. exists []. split; [reflexivity|]. exists a, [], b, [].
  do 2 (split; [reflexivity|]). split; [destruct Ha as [->| ->]; auto|auto].
Qed.

(** * A line can be read in one way only *)
Definition isint (c : ascii) : bool := isdigit c || Ascii.eqb c "-"%char.
Lemma integer_chars s z : integer s z -> all_chars isint s = true.
Proof.
  intros H. destruct (proj1 (integer_iff s) (ex_intro _ z H)) as (a & b & -> & Ha & _ & Hb).
  rewrite all_chars_app. replace (all_chars isint b) with true; [destruct Ha as [->| ->]; reflexivity|].
  symmetry. revert Hb. apply all_chars_impl. intros c E. unfold isint. now rewrite E.
Qed.
Lemma natural_chars s z : natural s z -> all_chars isint s = true.
Proof. intros H. eapply integer_chars, natural_integer, H. Qed.
Lemma app_inj_l (p a b : string) : p ++ a = p ++ b -> a = b.
Proof. induction p; cbn; [auto|]. intros [= E]. auto. Qed.
Lemma word_chars s : word s -> all_chars isword s = true.
Proof. now intros []. Qed.
Lemma dotted_chars s : dotted s -> all_chars isname s = true.
Proof. intros [_ H]. now rewrite (all_chars_ext _ _ s isname_swap). Qed.
Ltac chars := first [eapply integer_chars; eassumption | eapply natural_chars; eassumption | apply word_chars; assumption | apply dotted_chars; assumption].
Ltac peel E := let A := fresh "A" in
  first [ injection E; clear E; intros E
        | match type of E with
          | ?w ++ String ?c ?t = ?w' ++ String ?c ?t' =>
            first [ destruct (field_unique isword c w t w' t') as [A E']; [chars|chars|reflexivity|exact E|]
                  | destruct (field_unique isname c w t w' t') as [A E']; [chars|chars|reflexivity|exact E|]
                  | destruct (field_unique isint c w t w' t') as [A E']; [chars|chars|reflexivity|exact E|] ];
            clear E; rename E' into E
          end ].
Ltac flatten E := unfold quoted in E; cbn [append] in E; repeat (progress (rewrite str_app_assoc in E; cbn [append] in E)).
Lemma port_unique l a b : port_line l a -> port_line l b -> a = b.
Proof.
  destruct a as [n1 a1 a2 a3 a4 l1], b as [n2 b1 b2 b3 b4 l2].
  intros (nr & k & x1 & y1 & x2 & y2 & E1 & H) (nr' & k' & x1' & y1' & x2' & y2' & E2 & H').
  cbn [p_net p_layer p_xb p_yb p_xt p_yt] in *. rewrite E1 in E2. clear E1. rename E2 into E. flatten E.
  decompose [and] H. decompose [and] H'. clear H H'. repeat peel E. subst.
  f_equal; eapply integer_fun; eassumption.
Qed.
Lemma node_unique l a b : node_line l a -> node_line l b -> a = b.
Proof.
  destruct a as [n1 a1 a2 a3 a4 l1], b as [n2 b1 b2 b3 b4 l2].
  intros (kd & r & c & x & y & m & E1 & K & H) (kd' & r' & c' & x' & y' & m' & E2 & K' & H').
  cbn [n_net n_layer n_r n_c n_x n_y] in *. rewrite E1 in E2. clear E1. rename E2 into E. flatten E.
  decompose [and] H. decompose [and] H'. clear H H'.
  destruct K as [->| ->], K' as [->| ->]; try discriminate E; repeat peel E; subst;
    (f_equal; first [eapply natural_fun; eassumption | eapply integer_fun; eassumption]).
Qed.
Lemma device_unique l a b : device_text l a -> device_text l b -> a = b.
Proof.
  destruct a as [n1 l1 a1 a2 a3 a4], b as [n2 l2 b1 b2 b3 b4].
  intros (x1 & y1 & x2 & y2 & m & E1 & H) (x1' & y1' & x2' & y2' & m' & E2 & H').
  cbn [d_type d_model d_xb d_yb d_xt d_yt] in *. rewrite E1 in E2. clear E1. rename E2 into E. flatten E.
  decompose [and] H. decompose [and] H'. clear H H'. repeat peel E. subst.
  f_equal; eapply integer_fun; eassumption.
Qed.
Lemma rnode_unique l a b : rnode_line l a -> rnode_line l b -> a = b.
Proof.
  destruct a as [n1 a1 a2 a3 a4], b as [n2 b1 b2 b3 b4].
  intros (x1 & y1 & x2 & y2 & E1 & H) (x1' & y1' & x2' & y2' & E2 & H').
  cbn [r_name r_r r_c r_x r_y] in *. rewrite E1 in E2. clear E1. rename E2 into E. flatten E.
  decompose [and] H. decompose [and] H'. clear H H'. repeat peel E. subst.
  f_equal; eapply integer_fun; eassumption.
Qed.
Lemma resist_unique l n1 n2 v m1 m2 w : resist_text l n1 n2 v -> resist_text l m1 m2 w -> n1 = m1 /\ n2 = m2 /\ v = w.
Proof.
  intros (E1 & A1 & A2 & _) (E & B1 & B2 & _). rewrite E1 in E. clear E1. flatten E. repeat peel E. auto.
Qed.

(** * Whole files *)
Definition reads {A} (says : string -> A -> Prop) (bad : string -> Prop) (ln : string -> option (option A)) (l : string) : Prop :=
  (exists a, says l a /\ ln l = Some (Some a) /\ ~ bad l) \/
  ((forall a, ~ says l a) /\ ln l = Some None /\ ~ bad l) \/
  (bad l /\ ln l = None /\ forall a, ~ says l a).
Definition never (l : string) : Prop := False.

Lemma reads_port l : one_line l -> reads port_line never line_port l.
Proof.
  intros H1. destruct (re_match port_re l) as [g|] eqn:E.
  - left. destruct (line_port_sound l g H1 E) as (p & Hp & Hl). exists p. repeat split; auto.
  - right. left. split; [|split; [unfold line_port; now rewrite E|intros []]].
    intros p Hp. now apply (line_port_complete l p Hp).
Qed.
Lemma reads_node l : one_line l -> reads node_line never line_node l.
Proof.
  intros H1. destruct (re_match node_re l) as [g|] eqn:E.
  - left. destruct (line_node_sound l g H1 E) as (p & Hp & Hl). exists p. repeat split; auto.
  - right. left. split; [|split; [unfold line_node; now rewrite E|intros []]].
    intros p Hp. now apply (line_node_complete l p H1 Hp).
Qed.
Lemma reads_device l : one_line l -> reads device_line unknown_device line_device l.
Proof.
  intros H1. destruct (re_match device_re l) as [g|] eqn:E.
  - destruct (line_device_sound l g H1 E) as (p & Hp & Hl). destruct (existsb (String.eqb (d_type p)) device_types) eqn:T.
    + apply device_types_In in T. left. exists p. split; [now split|]. split; [auto|].
      intros (q & Hq & N). now rewrite (device_unique _ _ _ Hq Hp) in N.
    + assert (N : ~ In (d_type p) magic_types) by (intros I; apply device_types_In in I; congruence).
      right. right. split; [now exists p|]. split; [auto|]. intros q [Hq I]. now rewrite (device_unique _ _ _ Hq Hp) in I.
  - right. left. split; [|split; [unfold line_device; now rewrite E|]].
    + intros p [Hp _]. now apply (line_device_complete l p H1 Hp).
    + intros (p & Hp & _). now apply (line_device_complete l p H1 Hp).
Qed.
Lemma reads_rnode l : one_line l -> reads rnode_line never line_rnode l.
Proof.
  intros H1. destruct (re_match rnode_re l) as [g|] eqn:E.
  - left. destruct (line_rnode_sound l g H1 E) as (p & Hp & Hl). exists p. repeat split; auto.
  - right. left. split; [|split; [unfold line_rnode; now rewrite E|intros []]].
    intros p Hp. now apply (line_rnode_complete l p Hp).
Qed.
Lemma numeral_swap c : isnumeral c = isdigit c || Ascii.eqb c "."%char || Ascii.eqb c "\"%char.
Proof. unfold isnumeral. rewrite <- !Bool.orb_assoc. f_equal. apply Bool.orb_comm. Qed.
Lemma resistor_text l t : resistor_line l t -> exists v, resist_text l (t_node1 t) (t_node2 t) v /\ decimal v (t_ohm t).
Proof. intros (v & E & A & B & D). exists v. split; [|exact D]. unfold resist_text. eauto using decimal_text. Qed.
Lemma bad_resistor_text l : bad_resistor l <-> exists n1 n2 v, resist_text l n1 n2 v /\ forall q, ~ decimal v q.
Proof.
  split.
  - intros (n1 & n2 & v & w & E & A & B & V & W1 & W2 & N). exists n1, n2, v. split; [|exact N].
    unfold resist_text. do 3 (split; [assumption|]). rewrite <- (all_chars_ext _ _ w numeral_swap) in W2.
    destruct V as [->| ->]; [exists "", w|exists "-", w]; auto.
  - intros (n1 & n2 & v & (E & A & B & a & b & -> & Ha & W1 & W2) & N). exists n1, n2, (a ++ b), b.
    rewrite (all_chars_ext _ _ b numeral_swap) in W2. do 3 (split; [assumption|]). split; [destruct Ha as [->| ->]; auto|auto].
Qed.
Lemma reads_resistor l : one_line l -> reads resistor_line bad_resistor line_resistor l.
Proof.
  intros H1. destruct (re_match resist_re l) as [g|] eqn:E.
  - destruct (line_resistor_sound l g H1 E) as (n1 & n2 & v & Ht & Hl). destruct (py_float v) as [q|] eqn:F.
    + apply py_float_iff in F. left. exists (Build_resistor n1 n2 q). split; [|split; [exact Hl|]].
      * destruct Ht as (T & A & B & _). exists v. auto.
      * intros Hb. apply bad_resistor_text in Hb. destruct Hb as (m1 & m2 & w & Hw & N).
        destruct (resist_unique _ _ _ _ _ _ _ Ht Hw) as (_ & _ & <-). now apply (N q).
    + assert (N : forall q, ~ decimal v q) by (intros q D; apply py_float_iff in D; congruence).
      right. right. split; [apply bad_resistor_text; eauto 6|]. split; [exact Hl|].
      intros t Hr. apply resistor_text in Hr. destruct Hr as (w & Hw & D).
      destruct (resist_unique _ _ _ _ _ _ _ Ht Hw) as (_ & _ & <-). now apply (N (t_ohm t)).
  - right. left. split; [|split; [unfold line_resistor; now rewrite E|]].
    + intros t Hr. apply resistor_text in Hr. destruct Hr as (w & Hw & D). now apply (line_resistor_complete _ _ _ _ Hw).
    + intros Hb. apply bad_resistor_text in Hb. destruct Hb as (m1 & m2 & w & Hw & N). now apply (line_resistor_complete _ _ _ _ Hw).
Qed.

(** the lines of a text have no newline inside *)
Lemma lstrip_all P s : all_chars P s = true -> all_chars P (lstrip s) = true.
Proof. induction s as [|c s IH]; cbn; [auto|]. intros H. destruct (isspace c); [|exact H]. apply andb_prop in H. tauto. Qed.
Lemma rstrip_all P s : all_chars P s = true -> all_chars P (rstrip s) = true.
Proof.
  induction s as [|c s IH]; cbn [rstrip all_chars]; [auto|]. intros H. apply andb_prop in H. destruct H as [H1 H2]. specialize (IH H2).
  destruct (rstrip s) as [|d t] eqn:E; [destruct (isspace c); cbn; [auto|now rewrite H1]|].
  cbn [all_chars] in *. now rewrite H1, IH.
Qed.
Lemma strip_all P s : all_chars P s = true -> all_chars P (strip s) = true.
Proof. intros H. unfold strip. now apply rstrip_all, lstrip_all. Qed.
Lemma rstrip_nl s : rstrip (s ++ String nl "") = rstrip s.
Proof. induction s as [|c s IH]; cbn [append rstrip]; [reflexivity|]. now rewrite IH. Qed.
Lemma strip_nl s : strip (s ++ String nl "") = strip s.
Proof.
  unfold strip. induction s as [|c s IH]; [reflexivity|]. cbn [append lstrip]. destruct (isspace c); [exact IH|].
  change (String c (s ++ String nl "")) with (String c s ++ String nl ""). apply rstrip_nl.
Qed.
Lemma readlines_form text : Forall (fun l => exists a, one_line a /\ (l = a \/ l = a ++ String nl "")) (readlines text).
Proof.
  induction text as [|c t IH]; [constructor|]. cbn [readlines]. destruct (Ascii.eqb c nl) eqn:E.
  - apply Ascii.eqb_eq in E. subst c. constructor; [|exact IH]. exists "". split; [reflexivity|now right].
  - assert (Hc : notnl c = true) by (unfold notnl; now rewrite E).
    destruct (readlines t) as [|x r].
    + constructor; [|constructor]. exists (String c ""). split; [unfold one_line; cbn [all_chars]; now rewrite Hc|now left].
    + inversion IH as [|? ? (a & A & B) Hr]; subst. constructor; [|exact Hr]. exists (String c a).
      split; [unfold one_line in *; cbn [all_chars]; now rewrite Hc|]. destruct B as [->| ->]; [now left|now right].
Qed.
Lemma lines_one text : Forall one_line (lines text).
Proof.
  unfold lines. apply Forall_map. eapply Forall_impl; [|apply readlines_form].
  intros l (a & A & [->| ->]); [|rewrite strip_nl]; now apply strip_all.
Qed.

(** every line is read by itself *)
Lemma fold_ext_none ls : fold_left ext_step ls None = None.
Proof. induction ls; cbn; auto. Qed.
Lemma fold_res_none ls : fold_left res_step ls None = None.
Proof. induction ls; cbn; auto. Qed.
Lemma fold_ext ls d : Forall one_line (map strip ls) ->
  (exists p n v, fold_left ext_step ls (Some d) = Some (Build_ext (x_ports d ++ p) (x_nodes d ++ n) (x_devices d ++ v)) /\
     picks port_line (map strip ls) p /\ picks node_line (map strip ls) n /\ picks device_line (map strip ls) v /\
     Forall (fun l => ~ unknown_device l) (map strip ls)) \/
  (fold_left ext_step ls (Some d) = None /\ Exists unknown_device (map strip ls)).
Proof.
  revert d. induction ls as [|line ls IH]; intros d H; cbn [map fold_left].
  - left. exists [], [], []. rewrite !app_nil_r. destruct d. repeat split; constructor.
  - inversion H as [|? ? H1 H2]; subst. unfold ext_step at 2 4. cbv zeta.
    destruct (reads_port _ H1) as [(p & Hp & Lp & _)|[(Hp & Lp & _)|([] & _)]];
    destruct (reads_node _ H1) as [(n & Hn & Ln & _)|[(Hn & Ln & _)|([] & _)]];
    destruct (reads_device _ H1) as [(v & Hv & Lv & Nv)|[(Hv & Lv & Nv)|(Hv & Lv & _)]];
    rewrite Lp, Ln, Lv; cbn [push]; try (right; split; [apply fold_ext_none|now constructor]).
    all: match goal with |- context [fold_left ext_step _ (Some ?e)] => destruct (IH e H2) as [(p' & n' & v' & E & Pp & Pn & Pv & F)|[E B]] end;
      [left|right; split; [exact E|now apply Exists_cons_tl]].
    all: do 3 eexists; (split; [rewrite E; cbn [x_ports x_nodes x_devices]; rewrite <- ?app_assoc; reflexivity|]);
      cbn [app]; repeat split; try (constructor; assumption).
Qed.
Lemma picks_fun {A} (says : string -> A -> Prop) ls r1 r2 :
  (forall l a b, says l a -> says l b -> a = b) -> picks says ls r1 -> picks says ls r2 -> r1 = r2.
Proof.
  intros U P. revert r2. induction P as [|l a ls r S P IH|l ls r N P IH]; intros r2 Q; inversion Q; subst; auto.
  - f_equal; eauto.
  - exfalso. eapply H1, S.
  - exfalso. eapply N. eassumption.
Qed.
Lemma fold_res ls d : Forall one_line (map strip ls) ->
  (exists n v, fold_left res_step ls (Some d) = Some (Build_resext (y_rnodes d ++ n) (y_resistors d ++ v)) /\
     picks rnode_line (map strip ls) n /\ picks resistor_line (map strip ls) v /\
     Forall (fun l => ~ bad_resistor l) (map strip ls)) \/
  (fold_left res_step ls (Some d) = None /\ Exists bad_resistor (map strip ls)).
Proof.
  revert d. induction ls as [|line ls IH]; intros d H; cbn [map fold_left].
  - left. exists [], []. rewrite !app_nil_r. destruct d. repeat split; constructor.
  - inversion H as [|? ? H1 H2]; subst. unfold res_step at 2 4. cbv zeta.
    destruct (reads_rnode _ H1) as [(n & Hn & Ln & _)|[(Hn & Ln & _)|([] & _)]];
    destruct (reads_resistor _ H1) as [(v & Hv & Lv & Nv)|[(Hv & Lv & Nv)|(Hv & Lv & _)]];
    rewrite Ln, Lv; cbn [push]; try (right; split; [apply fold_res_none|now constructor]).
    all: match goal with |- context [fold_left res_step _ (Some ?e)] => destruct (IH e H2) as [(n' & v' & E & Pn & Pv & F)|[E B]] end;
      [left|right; split; [exact E|now apply Exists_cons_tl]].
    all: do 2 eexists; (split; [rewrite E; cbn [y_rnodes y_resistors]; rewrite <- ?app_assoc; reflexivity|]);
      cbn [app]; repeat split; try (constructor; assumption).
Qed.
Lemma resistor_unique l a b : resistor_line l a -> resistor_line l b -> a = b.
Proof.
  intros Ha Hb. apply resistor_text in Ha, Hb. destruct Ha as (v & Tv & Dv), Hb as (w & Tw & Dw).
  destruct (resist_unique _ _ _ _ _ _ _ Tv Tw) as (E1 & E2 & <-). destruct a, b. cbn in *. subst. f_equal.
  eapply decimal_fun; eassumption.
Qed.

Lemma parse_ext_iff text d : parse_ext text = Some d <->
  picks port_line (lines text) (x_ports d) /\ picks node_line (lines text) (x_nodes d) /\
  picks device_line (lines text) (x_devices d) /\ Forall (fun l => ~ unknown_device l) (lines text).
Proof.
  unfold parse_ext. destruct (fold_ext (readlines text) (Build_ext [] [] []) (lines_one text)) as [(p & n & v & E & Pp & Pn & Pv & F)|[E B]];
    fold (lines text) in *; rewrite E; cbn [x_ports x_nodes x_devices app].
  - split.
    + intros [= <-]. cbn. auto.
    + intros (Qp & Qn & Qv & _). destruct d as [p' n' v']. cbn in *. f_equal. f_equal.
      * eapply picks_fun; eauto using port_unique.
      * eapply picks_fun; eauto using node_unique.
      * eapply picks_fun; eauto. intros l a b [A _] [C _]. eapply device_unique; eassumption.
  - split; [discriminate|]. intros (_ & _ & _ & F). exfalso. apply Exists_exists in B. destruct B as (l & I & B).
    rewrite Forall_forall in F. now apply (F l I).
Qed.
Lemma parse_ext_none text : parse_ext text = None <-> Exists unknown_device (lines text).
Proof.
  unfold parse_ext. destruct (fold_ext (readlines text) (Build_ext [] [] []) (lines_one text)) as [(p & n & v & E & Pp & Pn & Pv & F)|[E B]];
    fold (lines text) in *; rewrite E.
  - split; [discriminate|]. intros B. exfalso. apply Exists_exists in B. destruct B as (l & I & B).
    rewrite Forall_forall in F. now apply (F l I).
  - split; auto.
Qed.
Lemma parse_res_iff text d : parse_res text = Some d <->
  picks rnode_line (lines text) (y_rnodes d) /\ picks resistor_line (lines text) (y_resistors d) /\
  Forall (fun l => ~ bad_resistor l) (lines text).
Proof.
  unfold parse_res. destruct (fold_res (readlines text) (Build_resext [] []) (lines_one text)) as [(n & v & E & Pn & Pv & F)|[E B]];
    fold (lines text) in *; rewrite E; cbn [y_rnodes y_resistors app].
  - split.
    + intros [= <-]. cbn. auto.
    + intros (Qn & Qv & _). destruct d as [n' v']. cbn in *. f_equal. f_equal.
      * eapply picks_fun; eauto using rnode_unique.
      * eapply picks_fun; eauto using resistor_unique.
  - split; [discriminate|]. intros (_ & _ & F). exfalso. apply Exists_exists in B. destruct B as (l & I & B).
    rewrite Forall_forall in F. now apply (F l I).
Qed.
Lemma parse_res_none text : parse_res text = None <-> Exists bad_resistor (lines text).
Proof.
  unfold parse_res. destruct (fold_res (readlines text) (Build_resext [] []) (lines_one text)) as [(n & v & E & Pn & Pv & F)|[E B]];
    fold (lines text) in *; rewrite E.
  - split; [discriminate|]. intros B. exfalso. apply Exists_exists in B. destruct B as (l & I & B).
    rewrite Forall_forall in F. now apply (F l I).
  - split; auto.
Qed.
