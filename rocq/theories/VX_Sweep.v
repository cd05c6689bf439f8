(** What is known of each surface that the sweep emits, for C105. *)
From Coq Require Import String List Permutation Lia.
From Verif Require Import PyBase PyLib SW_Model SW_Spec SW_Proofs SW_Sweep SW_Run SW_Props.
Import ListNotations.
Local Open Scope list_scope.

Section Solid.
Context {face : Type} {EF : EqDec face} {piece : Type} {EP : EqDec piece}.
Variables (left_of right_of : piece -> face) (pieces : list piece).
Notation surface := (@surface face piece).
Definition solid (s : surface) : Prop :=
  match s with
  | HDiel _ _ _ r | HCondIn _ _ _ r | HCondOut _ _ _ r => r <> []
  | VDiel _ _ _ _ e | VCond _ _ _ _ e => In (fst e) pieces
  end.
Lemma solid_emit r (s : surface) : (r <> [] -> solid s) -> Forall solid (emit_if r s).
Proof. intros H. unfold emit_if, is_empty. destruct r; [constructor|]. repeat constructor. apply H. discriminate. Qed.
Lemma solid_flat {A} (f : A -> list surface) l : (forall x, Forall solid (f x)) -> Forall solid (flat_map f l).
Proof. intros H. induction l; cbn; [constructor|]. apply Forall_app. auto. Qed.
Lemma solid_hdiel_in z mni dout mnos : forall lin, Forall solid (hdiel_in z mni dout mnos lin).
Proof. induction mnos as [|m l IH]; intros lin; cbn; [apply solid_emit; auto|]. apply Forall_app. split; [apply solid_emit; auto|apply IH]. Qed.
Lemma solid_hcond_in z mni dout mnos : forall lin, Forall solid (hcond_in z mni dout mnos lin).
Proof. induction mnos as [|m l IH]; intros lin; cbn; [apply solid_emit; auto|]. apply Forall_app. split; [apply solid_emit; auto|apply IH]. Qed.
Lemma solid_hcond_out z mni dout mnos : forall lin, Forall solid (hcond_out z mni dout mnos lin).
Proof. induction mnos as [|m l IH]; intros lin; cbn; [apply solid_emit; auto|]. apply Forall_app. split; [apply solid_emit; auto|apply IH]. Qed.
Definition here (l : list (piece * bool)) : Prop := forall e, In e l -> In (fst e) pieces.
Lemma here_edges r : here (edges left_of right_of pieces r).
Proof.
  intros e I. unfold edges in I. apply in_flat_map in I. destruct I as (b & J & E).
  destruct (has r (left_of b)), (has r (right_of b)); cbn in E; try contradiction; destruct E as [<-|[]]; exact J.
Qed.
Lemma here_and l m : here l -> here (e_and l m). Proof. intros H e I. apply filter_In in I. apply H, I. Qed.
Lemma here_sub l m : here l -> here (e_sub l m). Proof. intros H e I. apply filter_In in I. apply H, I. Qed.
Lemma solid_map (f : piece * bool -> surface) l : here l -> (forall e, In (fst e) pieces -> solid (f e)) -> Forall solid (map f l).
Proof. intros H F. rewrite Forall_map. apply Forall_forall. intros e I. apply F, H, I. Qed.
Lemma solid_vdiel z zz st i mni mnos : forall o lin, here lin -> Forall solid (vdiel_loop left_of right_of pieces z zz st i mni o mnos lin).
Proof.
  induction mnos as [|m l IH]; intros o lin H; cbn; [apply solid_map; auto|].
  destruct (Nat.eqb i o); [apply IH, H|]. apply Forall_app. split; [|apply IH, here_sub, H].
  match goal with |- Forall _ (if ?c then _ else _) => destruct c end; [|constructor]. apply solid_map; [apply here_and, here_edges|]. intros e I. exact I.
Qed.
Lemma solid_vcond z zz st nn mnos : forall lin, here lin -> Forall solid (vcond_loop left_of right_of pieces z zz st nn mnos lin).
Proof.
  induction mnos as [|m l IH]; intros lin H; cbn; [apply solid_map; auto|].
  apply Forall_app. split; [|apply IH, here_sub, H]. apply solid_map; [apply here_and, here_edges|]. intros e I. exact I.
Qed.
Lemma surfaces_events z k ls : forall g : @gen face piece, surfaces (add_events z g k ls) = surfaces g.
Proof.
  unfold add_events. induction ls as [|[[r z0] z1] ls IH]; intros g; cbn [fold_left]; [reflexivity|]. rewrite IH.
  destruct ((z0 <=? z)%Z && (z <? z1)%Z), ((z0 <? z)%Z && (z <=? z1)%Z); reflexivity.
Qed.
Lemma surfaces_all_events z (mk : string -> mkey) d : forall g : @gen face piece,
  surfaces (fold_left (fun g e => add_events z g (mk (fst e)) (snd e)) d g) = surfaces g.
Proof. induction d as [|e d IH]; intros g; cbn [fold_left]; [reflexivity|]. rewrite IH. apply surfaces_events. Qed.
Lemma solid_level b g z : Forall solid (surfaces g) -> Forall solid (surfaces (level left_of right_of pieces b g z)).
Proof.
  intros G. unfold level. unfold finish_z. cbn [surfaces]. apply Forall_app. split.
  - rewrite !surfaces_all_events. unfold next_z. destruct (g_z g); cbn [surfaces]; [|exact G]. apply Forall_app. split; [exact G|]. apply Forall_app. split; apply solid_flat.
    + intros x. apply solid_vdiel, here_sub, here_edges.
    + intros x. apply solid_vcond, here_edges.
  - repeat (apply Forall_app; split); apply solid_flat; intros x.
    + apply solid_hdiel_in.
    + unfold hdiel_out. apply solid_emit. auto.
    + apply solid_hcond_in.
    + apply solid_hcond_out.
Qed.
Lemma solid_generate b g : generate left_of right_of pieces b = Some g -> Forall solid (surfaces g).
Proof.
  assert (R : forall l g, Forall solid (surfaces g) -> Forall solid (surfaces (fold_left (level left_of right_of pieces b) l g))).
  { induction l as [|z l IH]; intros h G; cbn [fold_left]; [exact G|]. apply IH, solid_level, G. }
  unfold generate. destruct (z_levels b) as [|z0 t]; [discriminate|]. intros [= <-]. apply (R (z0 :: t)). constructor.
Qed.
End Solid.

(** ** Labels *)
Section Labels.
Variables (nets mats : list string) (a b : mkey -> bool).
Let names := map Net nets ++ map Mat mats.
Definition among (o : option string) : Prop := forall m, o = Some m -> In m mats.
Definition label_ok (l : hlabel) : Prop :=
  match l with
  | LDiel x y => x <> y /\ among x /\ among y
  | LBottom n m | LTop n m => In n nets /\ among m
  end.
Lemma found_among f : among (find f mats). Proof. intros m E. apply find_some in E. apply E. Qed.
Lemma label_facts lab :
  In lab (labels nets mats (inb a b names) (inb b a names) (some_in a b (map Net nets)) (some_in b a (map Net nets))) ->
  label_ok lab /\ exists k, In k names /\ (a k = true \/ b k = true).
Proof.
  assert (IM : forall m, In m mats -> In (Mat m) names) by (intros m J; apply in_or_app; right; apply in_map, J).
  assert (IN : forall m, In m nets -> In (Net m) names) by (intros m J; apply in_or_app; left; apply in_map, J).
  assert (Q1 : forall k, inb a b names k = true -> a k = true) by (intros k F; unfold inb in F; apply andb_true_iff in F; tauto).
  assert (Q2 : forall k, inb b a names k = true -> b k = true) by (intros k F; unfold inb in F; apply andb_true_iff in F; tauto).
  unfold labels. rewrite !in_app_iff, !in_flat_map. intros [(m & M & I)|[(m & M & I)|[(m & M & I)|(m & M & I)]]].
  - destruct (inb a b names (Mat m)) eqn:E1; [|destruct I]. destruct (some_in b a (map Net nets)) eqn:E2; [destruct I|]. cbn in I. destruct I as [<-|[]].
    split; [|exists (Mat m); split; [apply IM, M|left; apply Q1, E1]]. split; [|split; [apply found_among|intros m' [= <-]; exact M]].
    intros F. assert (F0 := F). apply find_In in F. destruct F as [_ F].
    (* m is owned by nobody: it cannot be the first one to leave *)
    pose proof (Q1 _ E1) as A. pose proof (Q2 _ F) as B. unfold inb in E1, F. rewrite A, B in E1, F. cbn in E1, F.
    rewrite cond_events with (mats := mats) in E2. fold names in E2.
    destruct (eqb (find a names) (Some (Mat m))) eqn:Ea, (eqb (find b names) (Some (Mat m))) eqn:Eb; cbn in E1, F; try discriminate.
    destruct (find b names) as [[n|mb]|] eqn:Ob.
    + cbn in E2. rewrite F in E2. discriminate.
    + assert (Ob' := Ob). unfold names in Ob'. rewrite find_app in Ob'. destruct (find b (map Net nets)) as [k|] eqn:On.
      { apply find_In in On. destruct On as [On _]. apply in_map_iff in On. destruct On as (? & <- & _). discriminate. }
      assert (H : find (fun m' => inb b a names (Mat m')) mats = Some mb).
      { apply (find_mat_narrow b); [exact Ob'|intros x X; apply Q2, X|]. assert (Fb := Ob). apply find_In in Ob. destruct Ob as [_ Ob]. unfold inb. rewrite Ob.
        rewrite Fb, eqb_refl. cbn. apply negb_true_iff in F. rewrite eqb_sym in F. rewrite F. reflexivity. }
      rewrite H in F0. injection F0 as ->. rewrite eqb_refl in Eb. discriminate.
    + pose proof (find_none _ _ Ob (Mat m) (IM m M)). congruence.
  - destruct (inb b a names (Mat m)) eqn:E1; [|destruct I]. match type of I with In _ (if ?c then _ else _) => destruct c end; [|destruct I].
    destruct I as [<-|[]]. split; [|exists (Mat m); split; [apply IM, M|right; apply Q2, E1]].
    split; [discriminate|split; [intros m' [= <-]; exact M|discriminate]].
  - destruct (inb a b names (Net m)) eqn:E1; [|destruct I]. destruct I as [<-|[]]. split; [split; [exact M|apply found_among]|]. exists (Net m). auto.
  - destruct (inb b a names (Net m)) eqn:E1; [|destruct I]. destruct (some_in a b (map Net nets)); [destruct I|]. destruct I as [<-|[]]. split; [split; [exact M|apply found_among]|]. exists (Net m). auto.
Qed.
End Labels.

(** ** Walls *)
Definition wall_ok (nets mats : list string) (l : vlabel) : Prop :=
  match l with
  | LVDiel x y _ => x <> y /\ among mats x /\ among mats y
  | LVCond n m _ => In n nets /\ among mats m
  end.
Lemma material_among nets mats o : (forall k, o = Some k -> In k (map Net nets ++ map Mat mats)) -> among mats (material_of o).
Proof.
  intros I m E. destruct o as [[n|m']|]; try discriminate. injection E as <-. specialize (I _ eq_refl). apply in_app_iff in I.
  destruct I as [I|I]; apply in_map_iff in I; destruct I as (x & [= <-] & J); exact J.
Qed.
Lemma side_facts nets mats o o' d lab : o <> o' -> (forall k, o = Some k -> In k (map Net nets ++ map Mat mats)) -> (forall k, o' = Some k -> In k (map Net nets ++ map Mat mats)) ->
  In lab (expected_side mats o o' d) -> wall_ok nets mats lab /\ o <> None.
Proof.
  intros N I I' L. pose proof (material_among nets mats o I) as Q. pose proof (material_among nets mats o' I') as Q'. unfold expected_side in L.
  destruct o as [[n|m]|]; [| |destruct L].
  - destruct L as [<-|[]]. split; [|discriminate]. split; [|exact Q']. specialize (I _ eq_refl). apply in_app_iff in I.
    destruct I as [I|I]; apply in_map_iff in I; destruct I as (x & [= <-] & J); exact J.
  - split; [|discriminate]. destruct o' as [[n'|m']|]; [destruct L| |].
    + destruct (find _ mats) as [x|]; [|destruct L]. destruct (eqb x m); [|destruct L]. destruct L as [<-|[]]. split; [congruence|split; assumption].
    + destruct L as [<-|[]]. split; [discriminate|split; assumption].
Qed.
Lemma wall_facts nets mats L R lab : (forall k, L = Some k -> In k (map Net nets ++ map Mat mats)) -> (forall k, R = Some k -> In k (map Net nets ++ map Mat mats)) ->
  In lab (expected_v mats L R) -> wall_ok nets mats lab.
Proof.
  intros IL IR I. unfold expected_v in I. destruct (eqb L R) eqn:E; [destruct I|]. apply eqb_neq in E.
  apply in_app_iff in I. destruct I as [I|I]; eapply side_facts in I; try (apply I); auto.
Qed.
Lemma side_one mats o o' d : (List.length (expected_side mats o o' d) <= 1)%nat /\ forall x, In x (expected_side mats o o' d) -> match x with LVDiel _ _ d' | LVCond _ _ d' => d' = d end.
Proof.
  unfold expected_side. destruct o as [[n|m]|]; [| |cbn; split; [lia|intros ? []]].
  - cbn. split; [lia|intros x [<-|[]]; reflexivity].
  - destruct o' as [[n'|m']|]; [cbn; split; [lia|intros ? []]| |cbn; split; [lia|intros x [<-|[]]; reflexivity]].
    destruct (find _ mats) as [x|]; [destruct (eqb x m)|]; cbn; (split; [lia|]); [intros y [<-|[]]; reflexivity|intros ? []|intros ? []].
Qed.
Lemma one_NoDup {A} (l : list A) : (List.length l <= 1)%nat -> NoDup l.
Proof. destruct l as [|x [|y t]]; cbn; intros; [constructor|repeat constructor; intros []|lia]. Qed.
Lemma wall_NoDup mats L R : NoDup (expected_v mats L R).
Proof.
  unfold expected_v. destruct (eqb L R); [constructor|].
  destruct (side_one mats L R false) as [A1 A2]. destruct (side_one mats R L true) as [B1 B2]. revert A1 A2 B1 B2.
  generalize (expected_side mats L R false), (expected_side mats R L true). intros l m A1 A2 B1 B2.
  apply one_NoDup in B1. apply one_NoDup in A1. induction A1 as [|x l N D IH]; cbn; [exact B1|]. constructor.
  - rewrite in_app_iff. intros [J|J]; [apply N, J|]. specialize (A2 x (or_introl eq_refl)). specialize (B2 x J). destruct x; congruence.
  - apply IH. intros y Y. apply A2. now right.
Qed.

(** ** Each surface *)
Section All.
Context {face : Type} {EF : EqDec face} {piece : Type} {EP : EqDec piece}.
Variables (left_of right_of : piece -> face) (pieces : list piece) (dbu : Qc) (cs : list (@call face)) (b : @builder face) (g : @gen face piece).
Hypothesis Np : NoDup pieces.
Hypothesis B : build dbu cs = Some b.
Hypothesis Two : (2 <= List.length (priority cs))%nat.
Hypothesis G : generate left_of right_of pieces b = Some g.
Notation nets := (nets_of cs).
Notation mats := (materials_of cs).
Definition in_shape (p : face) : Prop := exists c k r z0 z1, In c cs /\ call_adds dbu c k = Some (r, z0, z1) /\ In p r.
Definition steps (z zz : Z) : Prop := is_level dbu cs z /\ is_level dbu cs zz /\ (z < zz)%Z /\ forall y, is_level dbu cs y -> ~ (z < y < zz)%Z.
Definition described_surface (s : @surface face piece) : Prop :=
  match s with
  | HDiel z x y r => is_level dbu cs z /\ label_ok nets mats (LDiel x y) /\ Forall in_shape r
  | HCondIn z n m r => is_level dbu cs z /\ label_ok nets mats (LBottom n m) /\ Forall in_shape r
  | HCondOut z n m r => is_level dbu cs z /\ label_ok nets mats (LTop n m) /\ Forall in_shape r
  | VDiel z zz x y e => steps z zz /\ wall_ok nets mats (LVDiel x y (snd e)) /\ In (fst e) pieces
  | VCond z zz n m e => steps z zz /\ wall_ok nets mats (LVCond n m (snd e)) /\ In (fst e) pieces
  end.
Lemma run_known : runinv left_of right_of pieces dbu cs (z_levels b) g.
Proof.
  pose proof (build_described dbu cs b B) as De. unfold generate in G. destruct (z_levels b) as [|z0 t] eqn:E; [discriminate|]. injection G as <-. rewrite <- E.
  apply (run_ok left_of right_of pieces Np dbu cs b De Two (z_levels b) []). rewrite app_nil_r. reflexivity.
Qed.
Lemma shape_present p z k : present_above dbu cs z p k = true \/ present_below dbu cs z p k = true -> in_shape p.
Proof.
  intros [I|I]; apply existsb_exists in I; destruct I as (c & J & E); destruct (call_adds dbu c k) as [[[r z0] z1]|] eqn:A; try discriminate;
    apply andb_true_iff in E; destruct E as [_ E]; apply existsb_In in E; exists c, k, r, z0, z1; auto.
Qed.
Lemma label_known s z p lab : In s (surfaces g) -> In lab (hlabel_at z p s) -> is_level dbu cs z /\ label_ok nets mats lab /\ in_shape p.
Proof.
  intros I J. assert (H : In lab (horizontals z p (surfaces g))) by (apply in_flat_map; exists s; auto).
  pose proof run_known as R. destruct (z_levels_ok dbu cs b (build_described dbu cs b B)) as [_ Lv].
  destruct (in_dec Z.eq_dec z (z_levels b)) as [K|K].
  - rewrite (ri_h _ _ _ _ _ _ _ R z p K) in H. unfold labels_z in H. cbn zeta in H. unfold priority in H. apply label_facts in H.
    destruct H as [H (k & _ & P)]. split; [apply Lv, K|split; [exact H|]]. apply (shape_present p z k). exact P.
  - rewrite (ri_h0 _ _ _ _ _ _ _ R z p K) in H. destruct H.
Qed.
Lemma owner_everyone z p k : owner_above dbu cs z p = Some k -> In k (map Net nets ++ map Mat mats).
Proof. unfold owner_above. intros E. apply find_In in E. apply E. Qed.
Lemma steps_dec z zz : steps z zz \/ ~ steps z zz.
Proof.
  destruct (z_levels_ok dbu cs b (build_described dbu cs b B)) as [_ Lv]. unfold steps.
  destruct (in_dec Z.eq_dec z (z_levels b)) as [K|K]; [|right; rewrite <- Lv; tauto].
  destruct (in_dec Z.eq_dec zz (z_levels b)) as [K'|K']; [|right; rewrite <- (Lv zz); tauto].
  destruct (Z_lt_dec z zz) as [L|L]; [|right; tauto].
  destruct (existsb (fun y => (z <? y)%Z && (y <? zz)%Z) (z_levels b)) eqn:E.
  - right. intros (_ & _ & _ & N). apply existsb_exists in E. destruct E as (y & J & E). apply andb_true_iff in E. rewrite !Z.ltb_lt in E. apply (N y); [apply Lv, J|lia].
  - left. rewrite <- !Lv. repeat split; auto. intros y J [Y1 Y2]. apply Lv in J. assert (X : existsb (fun y => (z <? y)%Z && (y <? zz)%Z) (z_levels b) = true); [|congruence].
    apply existsb_exists. exists y. split; [exact J|]. apply andb_true_iff. rewrite !Z.ltb_lt. auto.
Qed.
Lemma wall_known s z zz e lab : In s (surfaces g) -> In e pieces -> In lab (vlabel_at z zz e s) -> steps z zz /\ wall_ok nets mats lab.
Proof.
  intros I E J. assert (H : In lab (verticals z zz e (surfaces g))) by (apply in_flat_map; exists s; auto).
  destruct (C32_vertical_partial face piece EF EP left_of right_of pieces dbu cs b g Np B Two G z zz e E) as [V V0].
  destruct (steps_dec z zz) as [S|S].
  - split; [exact S|]. apply (Permutation_in _ (V S)) in H. apply (wall_facts nets) in H; [exact H| |]; intros k; apply owner_everyone.
  - rewrite (V0 S) in H. destruct H.
Qed.
Theorem all_described s : In s (surfaces g) -> described_surface s.
Proof.
  intros I. pose proof (solid_generate left_of right_of pieces b g G) as S. rewrite Forall_forall in S. specialize (S s I).
  assert (H0 : forall z p (r : list face) (lab : hlabel), In p r -> (if Z.eqb z z && existsb (eqb p) r then [lab] else []) = [lab]).
  { intros z p r lab J. rewrite Z.eqb_refl. apply existsb_In in J. rewrite J. reflexivity. }
  assert (V0 : forall z zz (e : piece) (lab : vlabel), (if Z.eqb z z && Z.eqb zz zz && eqb e e then [lab] else []) = [lab]).
  { intros. rewrite !Z.eqb_refl, eqb_refl. reflexivity. }
  destruct s as [z x y r|z n m r|z n m r|z zz x y [e d]|z zz n m [e d]]; cbn [solid described_surface fst snd] in *.
  - destruct r as [|p r]; [congruence|]. assert (A : forall p', In p' (p :: r) -> is_level dbu cs z /\ label_ok nets mats (LDiel x y) /\ in_shape p').
    { intros p' J. apply (label_known _ z p' (LDiel x y) I). cbn [hlabel_at]. rewrite H0 by exact J. now left. }
    destruct (A p (or_introl eq_refl)) as (A1 & A2 & _). split; [exact A1|split; [exact A2|]]. apply Forall_forall. intros p' J. apply A, J.
  - destruct r as [|p r]; [congruence|]. assert (A : forall p', In p' (p :: r) -> is_level dbu cs z /\ label_ok nets mats (LBottom n m) /\ in_shape p').
    { intros p' J. apply (label_known _ z p' (LBottom n m) I). cbn [hlabel_at]. rewrite H0 by exact J. now left. }
    destruct (A p (or_introl eq_refl)) as (A1 & A2 & _). split; [exact A1|split; [exact A2|]]. apply Forall_forall. intros p' J. apply A, J.
  - destruct r as [|p r]; [congruence|]. assert (A : forall p', In p' (p :: r) -> is_level dbu cs z /\ label_ok nets mats (LTop n m) /\ in_shape p').
    { intros p' J. apply (label_known _ z p' (LTop n m) I). cbn [hlabel_at]. rewrite H0 by exact J. now left. }
    destruct (A p (or_introl eq_refl)) as (A1 & A2 & _). split; [exact A1|split; [exact A2|]]. apply Forall_forall. intros p' J. apply A, J.
  - destruct (wall_known _ z zz e (LVDiel x y d) I S) as [A1 A2]; [cbn [vlabel_at]; rewrite V0; now left|auto].
  - destruct (wall_known _ z zz e (LVCond n m d) I S) as [A1 A2]; [cbn [vlabel_at]; rewrite V0; now left|auto].
Qed.
End All.
