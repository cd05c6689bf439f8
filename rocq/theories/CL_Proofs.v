(** Proofs about the command line model. *)
From Coq Require Import String Ascii ZArith Lia.
From Verif Require Import PyBase PyLib PyStr UT_Model CL_Model CL_Spec.
Local Open Scope string_scope.
Local Open Scope list_scope.

(** ** names *)
Lemma la_app a b : list_ascii_of_string (a ++ b)%string = list_ascii_of_string a ++ list_ascii_of_string b.
Proof. induction a as [|x a IH]; simpl; [reflexivity|]. rewrite IH. reflexivity. Qed.
Lemma la_inj a b : list_ascii_of_string a = list_ascii_of_string b -> a = b.
Proof. intros E. rewrite <- (string_of_list_ascii_of_string a), E, string_of_list_ascii_of_string. reflexivity. Qed.
Lemma append_inj_l a b s : (a ++ s)%string = (b ++ s)%string -> a = b.
Proof. intros E. apply la_inj. apply (f_equal list_ascii_of_string) in E. rewrite !la_app in E. apply app_inv_tail in E. exact E. Qed.
Ltac suffix E := apply (f_equal (fun s => rev (list_ascii_of_string s))) in E; rewrite !la_app, !rev_app_distr in E; simpl in E; congruence.
Lemma lvsdb_export c d : (c ++ ".lvsdb.gz")%string <> (d ++ "_exported.gds.gz")%string.
Proof. intros E. suffix E. Qed.
Lemma lvsdb_dummy c d : (c ++ ".lvsdb.gz")%string <> (d ++ "_dummy_schematic.spice")%string.
Proof. intros E. suffix E. Qed.
Lemma export_dummy c d : (c ++ "_exported.gds.gz")%string <> (d ++ "_dummy_schematic.spice")%string.
Proof. intros E. suffix E. Qed.

Lemma lvsdb_not_export a g c b h d : lvsdb_path a g c <> export_path b h d.
Proof. unfold lvsdb_path, export_path. intros E. apply app_inj_tail in E as [_ E]. apply (lvsdb_export _ _ E). Qed.
Lemma lvsdb_not_dummy a g c b h d : lvsdb_path a g c <> dummy_path b h d.
Proof. unfold lvsdb_path, dummy_path. intros E. apply app_inj_tail in E as [_ E]. apply (lvsdb_dummy _ _ E). Qed.
Lemma export_not_dummy a g c b h d : export_path a g c <> dummy_path b h d.
Proof. unfold export_path, dummy_path. intros E. apply app_inj_tail in E as [_ E]. apply (export_dummy _ _ E). Qed.
Lemma lvsdb_path_inj a g c b h d : lvsdb_path a g c = lvsdb_path b h d -> run_dir a g c = run_dir b h d /\ c = d.
Proof. unfold lvsdb_path. intros E. apply app_inj_tail in E as [E F]. split; [exact E|]. apply (append_inj_l _ _ _ F). Qed.
Lemma cache_path_inj a g c b h d : cache_dir a = cache_dir b -> cache_path a g c = cache_path b h d -> a_pdk a = a_pdk b /\ g = h /\ c = d.
Proof.
  unfold cache_path. intros D E. rewrite D in E. apply app_inv_head in E. simpl in E. injection E as P E.
  apply app_inj_tail in E as [E F]. split; [exact P|]. split; [exact E|]. apply (append_inj_l _ _ _ F).
Qed.

(** the run directory is never called like the input file *)
Lemma split_hd_prefix sep s : exists r, s = (hd "" (split_on sep s) ++ r)%string.
Proof.
  induction s as [|x s [r IH]]; simpl; [exists ""; reflexivity|].
  destruct (Ascii.eqb x sep); [exists (String x s); reflexivity|]. destruct (split_on sep s) as [|y l]; simpl in *; [exists s; reflexivity|].
  exists r. rewrite <- IH. reflexivity.
Qed.
Lemma split_hd_no sep s x t : hd "" (split_on sep s) = (x ++ t)%string -> hd "" (split_on sep (x ++ t)) = (x ++ t)%string.
Proof.
  intros E. rewrite <- E. clear. induction s as [|y s IH]; simpl; [reflexivity|]. destruct (Ascii.eqb y sep) eqn:B; [reflexivity|].
  destruct (split_on sep s) as [|z l]; simpl in *; [rewrite B; reflexivity|]. rewrite B. destruct (split_on sep z); simpl in *; congruence.
Qed.
Lemma split_hd_head sep s : hd "" (split_on sep (hd "" (split_on sep s))) = hd "" (split_on sep s).
Proof. exact (split_hd_no sep s "" _ eq_refl). Qed.
Lemma split_hd_cons sep x s : hd "" (split_on sep (String x s)) = if Ascii.eqb x sep then "" else String x (hd "" (split_on sep s)).
Proof. simpl. destruct (Ascii.eqb x sep); [reflexivity|]. destruct (split_on sep s); reflexivity. Qed.
Lemma split_hd_app sep s t : hd "" (split_on sep s) = s -> hd "" (split_on sep (s ++ t)) = (s ++ hd "" (split_on sep t))%string.
Proof.
  induction s as [|x s IH]; [reflexivity|]. cbn [append]. rewrite !split_hd_cons. destruct (Ascii.eqb x sep); [discriminate|].
  intros E. injection E as E. rewrite IH by exact E. reflexivity.
Qed.
Lemma append_nil_r (s t : string) : (s ++ t)%string = s -> t = "".
Proof. induction s; simpl; [auto|]. intros E. injection E. exact IHs. Qed.
Lemma run_dir_id_not_base g c : last g "" <> run_dir_id g c.
Proof.
  unfold run_dir_id, stem. intros E.
  assert (H : hd "" (split_on dot (last g "")) = (hd "" (split_on dot (last g "")) ++ hd "" (split_on dot ("__" ++ c)))%string).
  { rewrite E at 1. apply split_hd_app. apply split_hd_head. }
  symmetry in H. apply append_nil_r in H. cbn [append] in H. rewrite split_hd_cons in H. simpl in H. discriminate.
Qed.
Lemma cache_not_run_dir a g c x : g <> [] -> cache_path a g c <> run_dir a g c ++ [x].
Proof.
  unfold cache_path, run_dir. intros N E. rewrite !app_assoc in E. apply app_inj_tail in E as [E _].
  destruct (exists_last N) as (g' & b & ->). rewrite app_assoc in E. apply app_inj_tail in E as [_ E].
  apply (run_dir_id_not_base (g' ++ [b]) c). rewrite last_last. exact E.
Qed.

(** ** the file system *)
Lemma put_same F p f : put F p f p = f.
Proof. unfold put. rewrite eqb_refl. reflexivity. Qed.
Lemma put_other F p f q : q <> p -> put F p f q = F q.
Proof. unfold put. intros N. rewrite (proj2 (eqb_false q p) N). reflexivity. Qed.
Lemma isfile_Some F p : isfile F p = true -> exists f, F p = Some f.
Proof. destruct p; simpl; [discriminate|]. destruct (F _); [eauto|discriminate]. Qed.
Lemma mem_In x l : mem x l = true <-> In x l.
Proof. unfold mem. rewrite existsb_exists. split; [intros (y & I & E); apply eqb_eq in E; subst; exact I|intros I; exists x; split; [exact I|apply eqb_refl]]. Qed.

(** ** validation *)
Definition schem_ok (a : args) (F : fs) (g : list string) (pl : plan) : Prop :=
  (pl_dummy pl = true /\ given (a_schematic a) = false /\ pl_schematic pl = dummy_path a g (pl_cell pl)) \/
  (pl_dummy pl = false /\ a_schematic a = Some (pl_schematic pl) /\ pl_schematic pl <> [] /\ (pl_errors pl = false -> exists f, F (pl_schematic pl) = Some f)).
Lemma validate_gds e a F pl g : a_gds a = Some g -> g <> [] -> validate e a F = VPlan pl ->
  pl_gds pl = Some g /\ pl_input pl = g /\ option_map f_data (F g) = Some (Gds (pl_layout pl)) /\ schem_ok a F g pl /\
  (pl_errors pl = false -> chosen a (pl_layout pl) (pl_cell pl) /\ pl_export pl = negb (eqb (tops_of (pl_layout pl)) [pl_cell pl])).
Proof.
  intros G N. unfold validate. rewrite G. destruct g as [|x g]; [congruence|]. simpl given. cbv iota.
  destruct (isfile F (x :: g)) eqn:FE; [|discriminate]. simpl negb. cbv iota.
  destruct (F (x :: g)) as [[[l| | |] t]|] eqn:Fg; try discriminate.
  set (e0 := negb (e_klayout e) || negb (e_tech e) || negb (e_script e) || engine_errors a). set (e1 := negb (log_level_ok a) || negb (diel_ok a)).
  assert (FIN : forall c ex ce, (ce = false -> chosen a l c /\ ex = negb (eqb (tops_of l) [c])) ->
    (let '(sp, dummy, se) := schematic_of a F (x :: g) c in VPlan (Plan (Some (x :: g)) (x :: g) c l ex sp dummy (e0 || ce || se || e1))) = VPlan pl ->
    pl_gds pl = Some (x :: g) /\ pl_input pl = x :: g /\ option_map f_data (Some (File (Gds l) t)) = Some (Gds (pl_layout pl)) /\ schem_ok a F (x :: g) pl /\
    (pl_errors pl = false -> chosen a (pl_layout pl) (pl_cell pl) /\ pl_export pl = negb (eqb (tops_of (pl_layout pl)) [pl_cell pl]))).
  { intros c ex ce K. destruct (schematic_of a F (x :: g) c) as [[sp dm] se] eqn:S. intros E. injection E as <-. simpl.
    split; [reflexivity|]. split; [reflexivity|]. split; [reflexivity|]. split.
    - unfold schematic_of in S. unfold schem_ok. simpl. destruct (a_schematic a) as [[|y r]|]; injection S as <- <- <-.
      + left. auto.
      + right. split; [reflexivity|]. split; [reflexivity|]. split; [discriminate|]. intros Q.
        apply orb_false_iff in Q as [Q _]. apply orb_false_iff in Q as [_ Q]. apply negb_false_iff in Q. destruct (F (y :: r)); [eauto|discriminate].
      + left. auto.
    - intros Q. apply K. apply orb_false_iff in Q as [Q _]. apply orb_false_iff in Q as [Q _]. apply orb_false_iff in Q as [_ Q]. exact Q. }
  unfold chosen in *. destruct (a_cell a) as [[|y r]|] eqn:C.
  - destruct (tops_of l) as [|u [|v w]] eqn:T; apply FIN; intros Q; try discriminate. split; [reflexivity|rewrite eqb_refl; reflexivity].
  - destruct (eqb (tops_of l) [String y r]) eqn:T.
    + apply FIN. intros Q. apply negb_false_iff, mem_In in Q. split; [auto|]. rewrite T. reflexivity.
    + destruct (mem (String y r) (cells_of l)) eqn:M; [|discriminate]. apply FIN. intros _. apply mem_In in M. split; [auto|]. rewrite T. reflexivity.
  - destruct (tops_of l) as [|u [|v w]] eqn:T; apply FIN; intros Q; try discriminate. split; [reflexivity|rewrite eqb_refl; reflexivity].
Qed.

(** ** one run *)
Definition data (F : fs) (p : list string) : option content := option_map f_data (F p).
Lemma data_put_same F p c t : data (put F p (stamp c t)) p = Some c.
Proof. unfold data. rewrite put_same. reflexivity. Qed.
Lemma data_put_other F p f q : q <> p -> data (put F p f) q = data F q.
Proof. unfold data. intros. rewrite put_other by assumption. reflexivity. Qed.

Section OneRun.
Variables (e : env) (a : args) (g : list string).
Hypothesis G : a_gds a = Some g.
Hypothesis Ng : g <> [].
Hypothesis Sep : forall p, reads a p -> ~ writes a p.
Variables (L : layout -> Prop) (S : content -> Prop) (C0 : string -> option file).
Definition schematic_seen (c : string) (s : content) : Prop := if given (a_schematic a) then S s else s = Text (dummy_text c).
Definition Right (db : content) : Prop :=
  exists l1 l2 c s, L l1 /\ L l2 /\ chosen a l1 c /\ schematic_seen c s /\
    db = Lvs (a_pdk a) (if eqb (tops_of l1) [c] then l2 else CellOf l1 c) s.
Definition seen (F : fs) : Prop :=
  (exists l, data F g = Some (Gds l) /\ L l) /\
  (forall sp, a_schematic a = Some sp -> sp <> [] -> exists s, data F sp = Some s /\ S s).
Definition no_hit (F : fs) : Prop :=
  a_cache a = false \/ forall c fc fg, C0 c = Some fc -> F g = Some fg -> (f_time fc <= f_time fg)%Z.
Definition early (F : fs) : Prop := forall c, F (cache_path a g c) = C0 c.

Definition good (pl : plan) : Prop :=
  pl_gds pl = Some g /\ pl_input pl = g /\ L (pl_layout pl) /\
  ((pl_dummy pl = true /\ given (a_schematic a) = false /\ pl_schematic pl = dummy_path a g (pl_cell pl)) \/
   (pl_dummy pl = false /\ a_schematic a = Some (pl_schematic pl) /\ pl_schematic pl <> [])) /\
  (pl_errors pl = false -> chosen a (pl_layout pl) (pl_cell pl) /\ pl_export pl = negb (eqb (tops_of (pl_layout pl)) [pl_cell pl])).
Definition exported (pl : plan) (F : fs) : Prop :=
  pl_export pl = true -> data F (export_path a g (pl_cell pl)) = Some (Gds (CellOf (pl_layout pl) (pl_cell pl))).
Definition dummied (pl : plan) (F : fs) : Prop :=
  pl_dummy pl = true -> data F (pl_schematic pl) = Some (Text (dummy_text (pl_cell pl))).
Definition reported (pl : plan) (F : fs) : Prop := exists db, data F (lvsdb_path a g (pl_cell pl)) = Some db /\ Right db.
Definition pinv (ph : phase) (F : fs) : Prop :=
  match ph with
  | PValidate => early F
  | PExport pl | PExported pl => early F /\ good pl
  | PDummy pl => early F /\ good pl /\ exported pl F
  | PDummied pl => early F /\ good pl /\ exported pl F /\ pl_dummy pl = true
  | PDecide pl => early F /\ good pl /\ exported pl F /\ dummied pl F
  | PCheck pl => early F /\ good pl /\ exported pl F /\ dummied pl F /\ pl_errors pl = false /\ a_cache a = true
  | PLvs pl => early F /\ good pl /\ exported pl F /\ dummied pl F /\ pl_errors pl = false
  | PLvsRun pl r => good pl /\ exists db, r = Some db /\ Right db
  | PLvsWrite pl db => good pl /\ Right db
  | PCopy pl | PCopied pl _ | PRead pl => good pl /\ reported pl F
  end.
Ltac splits := repeat match goal with |- _ /\ _ => split end.

Lemma w_export c : writes a (export_path a g c).
Proof. exists g, c. splits; auto. left. reflexivity. Qed.
Lemma w_dummy c : writes a (dummy_path a g c).
Proof. exists g, c. splits; auto. right; left. reflexivity. Qed.
Lemma w_lvsdb c : writes a (lvsdb_path a g c).
Proof. exists g, c. splits; auto. right; right; left. reflexivity. Qed.
Lemma w_cache c : writes a (cache_path a g c).
Proof. exists g, c. splits; auto. do 3 right; left. reflexivity. Qed.
Lemma early_put F p f : early F -> (exists c x, p = run_dir a g c ++ [x]) -> early (put F p f).
Proof.
  intros E (c & x & ->) d. rewrite put_other; [apply E|]. unfold cache_path, run_dir. intros Q. rewrite !app_assoc in Q. apply app_inj_tail in Q as [Q _].
  destruct (exists_last Ng) as (g' & b & K). rewrite K, app_assoc in Q. apply app_inj_tail in Q as [_ Q].
  apply (run_dir_id_not_base g c). rewrite K, last_last. rewrite Q at 1. reflexivity.
Qed.
Lemma exported_put pl F p f : exported pl F -> p <> export_path a g (pl_cell pl) -> exported pl (put F p f).
Proof. intros E N X. rewrite data_put_other by congruence. exact (E X). Qed.

Lemma step_inl ph F now F' ph' : pinv ph F -> seen F -> no_hit F -> go e a ph true F now = (F', inl ph') -> pinv ph' F'.
Proof.
  intros P [(lc & Dg & Lc) Sc] NH E. destruct ph as [|pl|pl|pl|pl|pl|pl|pl|pl r|pl db|pl|pl d|pl]; simpl in E, P.
  - destruct (validate e a F) as [pl| |] eqn:V; try discriminate. injection E as <- <-.
    destruct (validate_gds _ _ _ _ _ G Ng V) as (A1 & A2 & A3 & A4 & A5).
    assert (GP : good pl).
    { unfold good. splits; auto. - unfold data in Dg. rewrite Dg in A3. injection A3 as <-. exact Lc.
      - destruct A4 as [(X & Y & Z)|(X & Y & Z & _)]; [left|right]; auto. }
    destruct (pl_export pl) eqn:X; simpl; splits; auto. intros Y. congruence.
  - destruct P as [P1 P2]. injection E as <- <-. destruct P2 as (? & I & P2). simpl. splits; auto.
    + apply early_put; [exact P1|]. exists (pl_cell pl). rewrite I. eexists. reflexivity.
    + unfold good. auto.
  - destruct P as [P1 P2]. injection E as <- <-. pose proof P2 as (? & I & ?). simpl. splits; auto.
    + apply early_put; [exact P1|]. exists (pl_cell pl). rewrite I. eexists. reflexivity.
    + intros _. rewrite I. apply data_put_same.
  - destruct P as (P1 & P2 & P3). destruct (pl_dummy pl) eqn:D; injection E as <- <-; simpl.
    + pose proof P2 as (_ & _ & _ & [(_ & _ & Q)|(Q & _)] & _); [|congruence]. splits; auto.
      * apply early_put; [exact P1|]. exists (pl_cell pl). rewrite Q. eexists. reflexivity.
      * apply exported_put; [exact P3|]. rewrite Q. intros X. symmetry in X. apply export_not_dummy in X. exact X.
    + splits; auto. intros X. congruence.
  - destruct P as (P1 & P2 & P3 & P4). injection E as <- <-; simpl. pose proof P2 as (_ & I & _ & [(Dm & _ & Q)|(Q & _)] & _); [|congruence].
    splits; auto.
    + apply early_put; [exact P1|]. exists (pl_cell pl). rewrite Q. eexists. reflexivity.
    + apply exported_put; [exact P3|]. rewrite Q. intros X. symmetry in X. apply export_not_dummy in X. exact X.
    + intros _. apply data_put_same.
  - destruct P as (P1 & P2 & P3 & P4). destruct (pl_errors pl) eqn:Er; [discriminate|].
    destruct (negb _); [discriminate|]. pose proof P2 as (Q & _). rewrite Q in E. injection E as <- <-. destruct (a_cache a) eqn:Ca; simpl; splits; auto.
  - destruct P as (P1 & P2 & P3 & P4 & P5 & P6). pose proof P2 as (_ & I & _). rewrite I in E.
    destruct (F (cache_path a g (pl_cell pl))) as [fc|] eqn:FC; [|injection E as <- <-; simpl; splits; auto].
    destruct (F g) as [fg|] eqn:Fg; [|discriminate].
    destruct (f_time fc <=? f_time fg)%Z eqn:T; [injection E as <- <-; simpl; splits; auto|]. exfalso. apply Z.leb_gt in T.
    destruct NH as [NH|NH]; [congruence|]. rewrite P1 in FC. specialize (NH _ _ _ FC Fg). lia.
  - destruct P as (P1 & P2 & P3 & P4 & P5). injection E as <- <-. simpl. split; [exact P2|].
    pose proof P2 as (_ & I & Ll & Sm & Ch). destruct (Ch P5) as [Cc Ex].
    assert (exists s, data F (pl_schematic pl) = Some s /\ schematic_seen (pl_cell pl) s) as (s & Ds & Ss).
    { unfold schematic_seen. destruct Sm as [(D1 & D2 & D3)|(D1 & D2 & D3)].
      - rewrite D2. eexists. split; [exact (P4 D1)|reflexivity].
      - destruct (Sc _ D2 D3) as (s & Ds & Ss). exists s. split; [exact Ds|]. rewrite D2. destruct (pl_schematic pl); [congruence|exact Ss]. }
    unfold data in Ds. destruct (F (pl_schematic pl)) as [fs_|]; [|discriminate]. simpl in Ds. injection Ds as <-.
    unfold pl_lvs_input. rewrite I. unfold Right. destruct (pl_export pl) eqn:X.
    + specialize (P3 X). unfold data in P3. destruct (F (export_path a g (pl_cell pl))) as [[d t]|]; [|discriminate]. simpl in P3. injection P3 as ->.
      eexists. split; [reflexivity|]. exists (pl_layout pl), (pl_layout pl), (pl_cell pl), (f_data fs_). splits; auto.
      destruct (eqb (tops_of (pl_layout pl)) [pl_cell pl]); [discriminate|]. reflexivity.
    + unfold data in Dg. destruct (F g) as [[d t]|]; [|discriminate]. simpl in Dg. injection Dg as ->.
      eexists. split; [reflexivity|]. exists (pl_layout pl), lc, (pl_cell pl), (f_data fs_). splits; auto.
      destruct (eqb (tops_of (pl_layout pl)) [pl_cell pl]); [reflexivity|discriminate].
  - destruct P as (P1 & db & -> & P2). injection E as <- <-. simpl. auto.
  - destruct P as (P1 & P2). injection E as <- <-. pose proof P1 as (_ & I & _).
    assert (R : reported pl (put F (lvsdb_path a (pl_input pl) (pl_cell pl)) (stamp db now))).
    { exists db. rewrite I, data_put_same. auto. }
    destruct (a_cache a); simpl; auto.
  - destruct P as (P1 & P2). destruct (F (lvsdb_path a (pl_input pl) (pl_cell pl))) as [f|]; [|discriminate]. injection E as <- <-. simpl. split; [exact P1|].
    destruct P2 as (db & P2 & P3). exists db. split; [|exact P3]. pose proof P1 as (_ & I & _). rewrite I, data_put_other; [exact P2|].
    intros X. symmetry in X. apply cache_not_run_dir in X; auto.
  - destruct P as (P1 & P2). injection E as <- <-. simpl. split; [exact P1|].
    destruct P2 as (db & P2 & P3). exists db. split; [|exact P3]. pose proof P1 as (_ & I & _). rewrite I, data_put_other; [exact P2|].
    intros X. symmetry in X. apply cache_not_run_dir in X; auto.
  - destruct (F (read_path a pl)) as [[[| | |] ?]|]; discriminate.
Qed.
Lemma step_inr ph F now F' db : pinv ph F -> go e a ph true F now = (F', inr (Used db)) -> Right db.
Proof.
  intros P E. destruct ph as [|pl|pl|pl|pl|pl|pl|pl|pl r|pl d|pl|pl d|pl]; cbn [go] in E;
    try (repeat match type of E with context [match ?x with _ => _ end] => destruct x; try discriminate end; discriminate).
  simpl in P. destruct P as ((Gd & _) & db' & P2 & P3). unfold read_path in E. rewrite Gd in E. unfold data in P2.
  destruct (F (lvsdb_path a g (pl_cell pl))) as [[[| |p l s|] t]|]; try discriminate. simpl in P2. injection P2 as <-. injection E as _ <-. exact P3.
Qed.
Lemma edit_inv ph F p f : pinv ph F -> ~ writes a p -> pinv ph (put F p f).
Proof.
  intros P W.
  assert (E1 : early F -> early (put F p f)) by (intros E c; rewrite put_other; [apply E|intros X; apply W; rewrite <- X; apply w_cache]).
  assert (E2 : forall pl, exported pl F -> exported pl (put F p f)) by (intros pl E; apply exported_put; [exact E|intros X; apply W; rewrite X; apply w_export]).
  assert (E3 : forall pl, good pl -> dummied pl F -> dummied pl (put F p f)).
  { intros pl (_ & _ & _ & [(D1 & _ & D2)|(D1 & _)] & _) E X; [|congruence]. rewrite data_put_other; [exact (E X)|]. intros Y. apply W. rewrite <- Y, D2. apply w_dummy. }
  assert (E4 : forall pl, reported pl F -> reported pl (put F p f)).
  { intros pl (db & E & R). exists db. rewrite data_put_other; [auto|]. intros X. apply W. rewrite <- X. apply w_lvsdb. }
  destruct ph; simpl in *; intuition auto.
Qed.

(** the rest of a run *)
Definition steady (evs : list event) : Prop :=
  Forall one_run evs /\ forall p c k, In (Edit p c k) evs -> ~ writes a p.
Lemma idle_done evs w : w_run w = None -> Forall one_run evs -> w_run (run e w evs) = None /\ w_done (run e w evs) = w_done w.
Proof.
  revert w. induction evs as [|ev evs IH]; intros w R Fo; [auto|]. apply Forall_cons_iff in Fo as [F1 F2]. unfold run. cbn [fold_left]. fold (run e (step e w ev) evs).
  assert (K : w_run (step e w ev) = None /\ w_done (step e w ev) = w_done w) by (destruct ev; simpl in *; rewrite ?R; auto; contradiction).
  destruct K as [K1 K2]. destruct (IH _ K1 F2) as [I1 I2]. split; [exact I1|]. congruence.
Qed.
Lemma run_right evs w ph db : w_run w = Some (a, ph) -> pinv ph (w_fs w) -> steady evs ->
  (forall w1, In w1 (during e w evs) -> seen (w_fs w1) /\ no_hit (w_fs w1)) ->
  w_done (run e w evs) = (a, Used db) :: w_done w -> Right db.
Proof.
  revert w ph. induction evs as [|ev evs IH]; intros w ph R P [St Ed] Se Dn.
  { simpl in Dn. exfalso. apply (f_equal (@List.length _)) in Dn. simpl in Dn. lia. }
  apply Forall_cons_iff in St as [S1 S2].
  assert (St' : steady evs) by (split; [exact S2|intros p c k I; apply (Ed p c k); right; exact I]).
  assert (Se' : forall w1, In w1 (during e (step e w ev) evs) -> seen (w_fs w1) /\ no_hit (w_fs w1)) by (intros w1 I; apply Se; right; exact I).
  change (run e w (ev :: evs)) with (run e (step e w ev) evs) in Dn.
  destruct ev as [d|p c k|b|wr|]; simpl in S1; try contradiction.
  - apply (IH (step e w (Tick d)) ph); auto.
  - apply (IH (step e w (Edit p c k)) ph); auto. simpl. apply edit_inv; [exact P|]. apply (Ed p c k). left. reflexivity.
  - subst wr. destruct (Se w (or_introl eq_refl)) as [Sw Nw].
    destruct (go e a ph true (w_fs w) (w_now w)) as [F' [ph'|o]] eqn:E.
    + assert (K : step e w (Go true) = World F' (w_now w) (Some (a, ph')) (w_done w)) by (simpl; rewrite R, E; reflexivity).
      rewrite K in *. apply (IH (World F' (w_now w) (Some (a, ph')) (w_done w)) ph'); auto. simpl. apply (step_inl _ _ _ _ _ P Sw Nw E).
    + assert (K : step e w (Go true) = World F' (w_now w) None ((a, o) :: w_done w)) by (simpl; rewrite R, E; reflexivity).
      rewrite K in Dn. destruct (idle_done evs (World F' (w_now w) None ((a, o) :: w_done w)) eq_refl S2) as [_ Q]. rewrite Q in Dn. simpl in Dn. injection Dn as ->.
      apply (step_inr _ _ _ _ _ P E).
Qed.
(** progress *)
Definition rank (ph : phase) : nat :=
  match ph with PValidate => 12 | PExport _ => 11 | PExported _ => 10 | PDummy _ => 9 | PDummied _ => 8 | PDecide _ => 7 | PCheck _ => 6
              | PLvs _ => 5 | PLvsRun _ _ => 4 | PLvsWrite _ _ => 3 | PCopy _ => 2 | PCopied _ _ => 1 | PRead _ => 0 end.
Definition plan_of (ph : phase) : option plan :=
  match ph with PValidate => None | PExport p | PExported p | PDummy p | PDummied p | PDecide p | PCheck p | PLvs p | PLvsRun p _ | PLvsWrite p _
              | PCopy p | PCopied p _ | PRead p => Some p end.
Definition no_errors (ph : phase) (F : fs) : Prop :=
  match plan_of ph with Some pl => pl_errors pl = false | None => exists pl, validate e a F = VPlan pl /\ pl_errors pl = false end /\
  ((rank ph <= 6)%nat -> ~ only_magic a).
Lemma go_next ph F now : pinv ph F -> seen F -> no_hit F -> no_errors ph F ->
  match go e a ph true F now with
  | (F', inl ph') => (rank ph' < rank ph)%nat /\ no_errors ph' F' /\ (forall q, reads a q -> F' q = F q)
  | (_, inr NoLvs) => only_magic a
  | (_, inr (Used _)) => ~ only_magic a
  | (_, inr _) => False
  end.
Proof.
  intros P Se NH NE.
  assert (RW : forall p f, writes a p -> forall q, reads a q -> put F p f q = F q) by (intros p f W q R; apply put_other; intros ->; exact (Sep _ R W)).
  destruct ph as [|pl|pl|pl|pl|pl|pl|pl|pl r|pl d|pl|pl d|pl]; cbn [go]; unfold no_errors in *; cbn [plan_of pinv rank] in *; destruct NE as [NE NM].
  - destruct NE as (pl & V & Er). rewrite V. destruct (pl_export pl); cbn [rank plan_of]; splits; auto; lia.
  - destruct P as (_ & (_ & I & _)). rewrite I. cbn [rank plan_of]. splits; auto; try lia. apply RW, w_export.
  - destruct P as (_ & (_ & I & _)). rewrite I. cbn [rank plan_of]. splits; auto; try lia. apply RW, w_export.
  - destruct (pl_dummy pl) eqn:D; cbn [rank plan_of]; splits; auto; try lia. destruct P as (_ & (_ & _ & _ & [(_ & _ & Q)|(Q & _)] & _) & _); [|congruence]. rewrite Q. apply RW, w_dummy.
  - destruct P as (_ & (_ & _ & _ & [(_ & _ & Q)|(Q & _)] & _) & _ & D); [|congruence]. rewrite Q. cbn [rank plan_of]. splits; auto; try lia. apply RW, w_dummy.
  - rewrite NE. destruct (a_fastcap a || a_fastercap a || a_25d a) eqn:M; simpl negb; cbv iota.
    + destruct P as (_ & (Gd & _) & _). rewrite Gd. unfold only_magic. destruct (a_cache a); cbn [rank plan_of]; splits; auto; try lia;
        intros _ (X1 & X2 & X3); rewrite X1, X2, X3 in M; discriminate.
    + unfold only_magic. apply orb_false_iff in M as [M M3]. apply orb_false_iff in M as [M1 M2]. auto.
  - destruct P as (P1 & (Gd & I & _) & _). rewrite I. destruct Se as [(l & Dg & _) _]. unfold data in Dg. destruct (F g) as [fg|]; [|discriminate].
    destruct (F (cache_path a g (pl_cell pl))) as [fc|]; [|cbn [rank plan_of]; splits; auto; intros; apply NM; lia].
    destruct (f_time fc <=? f_time fg)%Z; cbn [rank plan_of]; splits; auto; try lia; intros; apply NM; lia.
  - cbn [rank plan_of]; splits; auto; intros; apply NM; lia.
  - destruct P as ((_ & I & _) & db & -> & _). rewrite I. cbn [rank plan_of]; splits; auto; try (intros; apply NM; lia); apply RW, w_lvsdb.
  - destruct P as ((_ & I & _) & _). rewrite I. destruct (a_cache a); cbn [rank plan_of]; splits; auto; try lia; try apply RW, w_lvsdb; intros; apply NM; lia.
  - destruct P as ((_ & I & _) & db & Dl & _). rewrite I. unfold data in Dl. destruct (F (lvsdb_path a g (pl_cell pl))); [|discriminate].
    cbn [rank plan_of]; splits; auto; try (intros; apply NM; lia); apply RW, w_cache.
  - destruct P as ((_ & I & _) & _). rewrite I. cbn [rank plan_of]; splits; auto; try (intros; apply NM; lia); apply RW, w_cache.
  - destruct P as ((Gd & I & _) & db & Dl & Rd). unfold read_path. rewrite Gd. unfold data in Dl. destruct Rd as (l1 & l2 & c & s & _ & _ & _ & _ & ->).
    destruct (F (lvsdb_path a g (pl_cell pl))) as [[dd t]|]; [|discriminate]. simpl in Dl. injection Dl as ->. apply NM. lia.
Qed.
Lemma run_finishes n w ph : (rank ph < n)%nat -> w_run w = Some (a, ph) -> pinv ph (w_fs w) -> seen (w_fs w) -> no_hit (w_fs w) -> no_errors ph (w_fs w) ->
  exists o, w_done (run e w (repeat (Go true) n)) = (a, o) :: w_done w /\ ((o = NoLvs /\ only_magic a) \/ exists db, o = Used db /\ Right db /\ ~ only_magic a).
Proof.
  revert w ph. induction n as [|n IH]; intros w ph Rk R P Se NH NE; [lia|]. cbn [repeat]. change (run e w (Go true :: repeat (Go true) n)) with (run e (step e w (Go true)) (repeat (Go true) n)).
  pose proof (go_next ph (w_fs w) (w_now w) P Se NH NE) as K. destruct (go e a ph true (w_fs w) (w_now w)) as [F' [ph'|o]] eqn:E.
  - assert (Q : step e w (Go true) = World F' (w_now w) (Some (a, ph')) (w_done w)) by (simpl; rewrite R, E; reflexivity). rewrite Q. destruct K as (K1 & K2 & K3).
    assert (Eg : F' g = w_fs w g) by (apply K3; split; auto).
    apply (IH (World F' (w_now w) (Some (a, ph')) (w_done w)) ph'); auto; simpl; [lia| | |].
    + apply (step_inl _ _ _ _ _ P Se NH E).
    + destruct Se as [S1 S2]. split; [unfold data; rewrite Eg; exact S1|]. intros sp Hs Ns. unfold data. rewrite K3; [exact (S2 sp Hs Ns)|]. split; auto.
    + destruct NH as [NH|NH]; [left; exact NH|right]. intros c fc fg. rewrite Eg. apply NH.
  - assert (Q : step e w (Go true) = World F' (w_now w) None ((a, o) :: w_done w)) by (simpl; rewrite R, E; reflexivity). rewrite Q.
    assert (Fo : Forall one_run (repeat (Go true) n)) by (clear; induction n; simpl; constructor; simpl; auto).
    destruct (idle_done _ (World F' (w_now w) None ((a, o) :: w_done w)) eq_refl Fo) as [_ D]. rewrite D. exists o. split; [reflexivity|].
    destruct o as [db| | |]; try contradiction; [|left; auto]. right. exists db. split; [reflexivity|]. split; [exact (step_inr _ _ _ _ _ P E)|exact K].
Qed.
End OneRun.

(** ** histories *)
Section History.
Variable (e : env) (A : args -> Prop).
Hypothesis Ap : apart A.
Ltac splits := repeat match goal with |- _ /\ _ => split end.

Definition gds_ok (a : args) (g : list string) : Prop := A a /\ a_gds a = Some g /\ g <> [].
(** the report in the run directory, if it can be read at all, is the one for the layout [l] *)
Definition fits (a : args) (g : list string) (c : string) (l : layout) (F : fs) : Prop :=
  match data F (lvsdb_path a g c) with
  | None | Some Truncated => True
  | Some db => exists s, db = Lvs (a_pdk a) (only_cell l c) s
  end.
Definition times (F : fs) (now : Z) : Prop := forall p f, F p = Some f -> (f_time f <= now)%Z.
Definition cached (F : fs) : Prop := forall a g c fc fg l, gds_ok a g -> F (cache_path a g c) = Some fc -> F g = Some fg ->
  (f_time fg < f_time fc)%Z -> f_data fg = Gds l -> fits a g c l F.

Definition hgood (a : args) (F : fs) (pl : plan) : Prop :=
  exists g, gds_ok a g /\ pl_gds pl = Some g /\ pl_input pl = g /\ data F g = Some (Gds (pl_layout pl)) /\ schem_ok a F g pl /\
  (pl_errors pl = false -> chosen a (pl_layout pl) (pl_cell pl) /\ pl_export pl = negb (eqb (tops_of (pl_layout pl)) [pl_cell pl])).
Definition result_ok (a : args) (pl : plan) (db : content) : Prop := exists s, db = Lvs (a_pdk a) (only_cell (pl_layout pl) (pl_cell pl)) s.
Definition lready (a : args) (F : fs) (pl : plan) : Prop :=
  hgood a F pl /\ pl_errors pl = false.
Definition hexported (a : args) (pl : plan) (F : fs) : Prop :=
  pl_export pl = true -> data F (export_path a (pl_input pl) (pl_cell pl)) = Some (Gds (CellOf (pl_layout pl) (pl_cell pl))).
Definition hdummied (pl : plan) (F : fs) : Prop :=
  pl_dummy pl = true -> data F (pl_schematic pl) = Some (Text (dummy_text (pl_cell pl))).
Definition hinv (a : args) (ph : phase) (F : fs) : Prop :=
  match ph with
  | PValidate => True
  | PExport pl | PExported pl => hgood a F pl
  | PDummy pl => (pl_gds pl = None /\ given (a_gds a) = false /\ pl_dummy pl = false) \/ (hgood a F pl /\ hexported a pl F)
  | PDummied pl => hgood a F pl /\ hexported a pl F /\ pl_dummy pl = true
  | PDecide pl => (pl_gds pl = None /\ given (a_gds a) = false) \/ (hgood a F pl /\ hexported a pl F /\ hdummied pl F)
  | PCheck pl | PLvs pl => lready a F pl /\ hexported a pl F /\ hdummied pl F
  | PLvsRun pl r => lready a F pl /\ exists db, r = Some db /\ result_ok a pl db
  | PLvsWrite pl db => lready a F pl /\ result_ok a pl db
  | PCopy pl | PCopied pl _ => lready a F pl /\ exists db, data F (lvsdb_path a (pl_input pl) (pl_cell pl)) = Some db /\ result_ok a pl db
  | PRead pl => (pl_gds pl = None /\ given (a_gds a) = false) \/ (lready a F pl /\ fits a (pl_input pl) (pl_cell pl) (pl_layout pl) F)
  end.
Definition hw (w : world) : Prop :=
  times (w_fs w) (w_now w) /\ cached (w_fs w) /\ match w_run w with None => True | Some (a, ph) => A a /\ hinv a ph (w_fs w) end.

Lemma validate_other a F pl : given (a_gds a) = false -> validate e a F = VPlan pl -> pl_gds pl = None /\ pl_export pl = false /\ pl_dummy pl = false.
Proof.
  intros G. unfold validate. rewrite G. destruct (a_lvsdb a) as [d|].
  - destruct (isfile F d); [|discriminate]. simpl. destruct (F d) as [[[| | |] ?]|]; try discriminate. intros E. injection E as <-. auto.
  - destruct (_ || _); discriminate.
Qed.
Lemma gw a g c p : gds_ok a g -> In p [export_path a g c; dummy_path a g c; lvsdb_path a g c; cache_path a g c] -> writes a p.
Proof. intros (_ & G & N) I. exists g, c. auto. Qed.
Lemma gr a g : gds_ok a g -> reads a g.
Proof. intros (_ & G & N). split; auto. Qed.
Lemma own_read a b p q F f : A a -> A b -> reads a q -> writes b p -> put F p f q = F q.
Proof. intros Aa Ab R W. apply put_other. apply (inputs_apart _ Ap _ _ _ _ Aa Ab R W). Qed.
Lemma same_lvsdb a g c b h d : gds_ok a g -> gds_ok b h -> lvsdb_path a g c = lvsdb_path b h d -> g = h /\ a_pdk a = a_pdk b /\ c = d.
Proof.
  intros (Aa & Ga & Na) (Ab & Gb & Nb) E. apply lvsdb_path_inj in E as [E <-]. unfold run_dir in E. apply app_inj_tail in E as [_ E].
  destruct (run_dirs_apart _ Ap _ _ _ _ _ Aa Ab Ga Gb Na Nb E) as [X Y]. auto.
Qed.

(** what the invariants look at *)
Lemma hgood_frame a F F' pl : (forall q, reads a q -> F' q = F q) -> hgood a F pl -> hgood a F' pl.
Proof.
  intros R (g & Ok & G1 & G2 & G3 & G4 & G5). exists g. splits; auto.
  - unfold data. rewrite R by exact (gr _ _ Ok). exact G3.
  - destruct G4 as [G4|(D1 & D2 & D3 & D4)]; [left; exact G4|right]. splits; auto. intros X. destruct (D4 X) as [f D]. exists f. rewrite R; [exact D|]. split; auto.
Qed.
Lemma hinv_frame a ph F F' : (forall q, reads a q -> F' q = F q) -> (forall q, writes a q -> F' q = F q) -> hinv a ph F -> hinv a ph F'.
Proof.
  intros R W H.
  assert (Hg : forall pl, hgood a F pl -> hgood a F' pl) by (intros pl; apply hgood_frame; exact R).
  assert (He : forall pl, hgood a F pl -> hexported a pl F -> hexported a pl F').
  { intros pl (g & Ok & _ & <- & _) X Y. unfold data. rewrite W; [exact (X Y)|]. apply (gw _ _ (pl_cell pl) _ Ok). left. reflexivity. }
  assert (Hd : forall pl, hgood a F pl -> hdummied pl F -> hdummied pl F').
  { intros pl (g & Ok & _ & _ & _ & [(_ & _ & D)|(D & _)] & _) X Y; [|congruence]. unfold data. rewrite W; [exact (X Y)|]. rewrite D. apply (gw _ _ (pl_cell pl) _ Ok). right; left. reflexivity. }
  assert (Hl : forall pl, lready a F pl -> data F' (lvsdb_path a (pl_input pl) (pl_cell pl)) = data F (lvsdb_path a (pl_input pl) (pl_cell pl))).
  { intros pl ((g & Ok & _ & <- & _) & _). unfold data. rewrite W; [reflexivity|]. apply (gw _ _ (pl_cell pl) _ Ok). right; right; left. reflexivity. }
  assert (Hr : forall pl, lready a F pl -> lready a F' pl) by (intros pl [X Y]; split; auto).
  destruct ph as [|pl|pl|pl|pl|pl|pl|pl|pl r|pl d|pl|pl d|pl]; simpl in *.
  - exact I.
  - auto.
  - auto.
  - destruct H as [H|(H1 & H2)]; [left; exact H|right]. auto.
  - destruct H as (H1 & H2 & H3). auto.
  - destruct H as [H|(H1 & H2 & H3)]; [left; exact H|right]. auto.
  - destruct H as (H1 & H2 & H3). splits; auto; [apply He|apply Hd]; auto; apply H1.
  - destruct H as (H1 & H2 & H3). splits; auto; [apply He|apply Hd]; auto; apply H1.
  - destruct H as (H1 & H2). auto.
  - destruct H as (H1 & H2). auto.
  - destruct H as (H1 & db & H2 & H3). split; [auto|]. exists db. rewrite Hl; auto.
  - destruct H as (H1 & db & H2 & H3). split; [auto|]. exists db. rewrite Hl; auto.
  - destruct H as [H|(H1 & H2)]; [left; exact H|right]. split; [auto|]. unfold fits. rewrite Hl; auto.
Qed.

Lemma times_put F now p c : times F now -> times (put F p (stamp c now)) now.
Proof. intros T q f. unfold put. destruct (eqb q p); [intros X; injection X as <-; simpl; lia|apply T]. Qed.
(** writing a file of the run directory that is not the report *)
Lemma cached_put_side b h d p f F : gds_ok b h -> cached F -> p = export_path b h d \/ p = dummy_path b h d -> cached (put F p f).
Proof.
  intros Ob C P a g c fc fg l Oa X Y T D.
  assert (N1 : cache_path a g c <> p).
  { intros Q. destruct Oa as (Aa & Ga & _), Ob as (Ab & Gb & _). apply (cache_apart _ Ap _ _ _ _ c d Aa Ab Ga Gb). rewrite Q. destruct P as [->| ->]; simpl; auto. }
  assert (N2 : lvsdb_path a g c <> p) by (destruct P as [->| ->]; [apply lvsdb_not_export|apply lvsdb_not_dummy]).
  assert (N3 : g <> p).
  { destruct Oa as (Aa & Ga & Na). apply (inputs_apart _ Ap _ _ _ _ Aa (proj1 Ob)); [split; auto|]. apply (gw _ _ d _ Ob). destruct P as [->| ->]; simpl; auto. }
  rewrite put_other in X by exact N1. rewrite put_other in Y by exact N3. unfold fits. rewrite data_put_other by exact N2. exact (C a g c fc fg l Oa X Y T D).
Qed.
(** writing the report *)
Lemma cached_put_report b h d f F : gds_ok b h -> cached F ->
  (forall l, data F h = Some (Gds l) -> match f_data f with Truncated => True | db => exists s, db = Lvs (a_pdk b) (only_cell l d) s end) ->
  cached (put F (lvsdb_path b h d) (Some f)).
Proof.
  intros Ob C K a g c fc fg l Oa X Y T D.
  assert (N1 : cache_path a g c <> lvsdb_path b h d).
  { intros Q. destruct Oa as (Aa & Ga & _), Ob as (Ab & Gb & _). apply (cache_apart _ Ap _ _ _ _ c d Aa Ab Ga Gb). rewrite Q. simpl; auto. }
  assert (N3 : g <> lvsdb_path b h d).
  { destruct Oa as (Aa & Ga & Na). apply (inputs_apart _ Ap _ _ _ _ Aa (proj1 Ob)); [split; auto|]. apply (gw _ _ d _ Ob). simpl; auto. }
  rewrite put_other in X by exact N1. rewrite put_other in Y by exact N3. unfold fits.
  destruct (eqb (lvsdb_path a g c) (lvsdb_path b h d)) eqn:Q.
  - apply eqb_eq in Q. destruct (same_lvsdb _ _ _ _ _ _ Oa Ob Q) as (<- & P & <-). rewrite Q. unfold data. rewrite put_same. simpl.
    rewrite P. specialize (K l). unfold data in K. rewrite Y in K. simpl in K. rewrite D in K. specialize (K eq_refl). destruct (f_data f); exact K.
  - rewrite data_put_other by (apply eqb_neq; exact Q). exact (C a g c fc fg l Oa X Y T D).
Qed.
(** writing the cached file *)
Lemma cached_put_cache b h d f F : gds_ok b h -> cached F -> (forall l, data F h = Some (Gds l) -> fits b h d l F) ->
  cached (put F (cache_path b h d) f).
Proof.
  intros Ob C K a g c fc fg l Oa X Y T D.
  assert (N2 : lvsdb_path a g c <> cache_path b h d).
  { intros Q. destruct Oa as (Aa & Ga & _), Ob as (Ab & Gb & _). apply (cache_apart _ Ap _ _ _ _ d c Ab Aa Gb Ga). rewrite <- Q. simpl; auto. }
  assert (N3 : g <> cache_path b h d).
  { destruct Oa as (Aa & Ga & Na). apply (inputs_apart _ Ap _ _ _ _ Aa (proj1 Ob)); [split; auto|]. apply (gw _ _ d _ Ob). simpl; auto. }
  rewrite put_other in Y by exact N3. unfold fits. rewrite data_put_other by exact N2.
  destruct (eqb (cache_path a g c) (cache_path b h d)) eqn:Q.
  - apply eqb_eq in Q. destruct (same_dirs _ Ap _ _ (proj1 Oa) (proj1 Ob)) as [Q1 Q2]. destruct (cache_path_inj _ _ _ _ _ _ Q2 Q) as (P & <- & <-).
    specialize (K l). unfold data in K. rewrite Y in K. simpl in K. rewrite D in K. specialize (K eq_refl). unfold fits, lvsdb_path, run_dir in *. rewrite Q1, P. exact K.
  - rewrite put_other in X by (apply eqb_neq; exact Q). exact (C a g c fc fg l Oa X Y T D).
Qed.

(** one's own writing in the run directory leaves the inputs alone *)
Lemma hgood_own a F pl g c p f : gds_ok a g -> In p [export_path a g c; dummy_path a g c; lvsdb_path a g c; cache_path a g c] ->
  hgood a F pl -> hgood a (put F p f) pl.
Proof. intros Ok I. apply hgood_frame. intros q R. apply (own_read a a); try exact (proj1 Ok); [exact R|exact (gw _ _ _ _ Ok I)]. Qed.
Lemma lready_own a F pl g c p f : gds_ok a g -> In p [export_path a g c; dummy_path a g c; lvsdb_path a g c; cache_path a g c] ->
  lready a F pl -> lready a (put F p f) pl.
Proof. intros Ok I [X Y]. split; [|exact Y]. apply (hgood_own a F pl g c p f Ok I X). Qed.

Definition keeps (a : args) (F : fs) (now : Z) (r : fs * (phase + outcome)) : Prop :=
  times (fst r) now /\ cached (fst r) /\ match snd r with inl ph => hinv a ph (fst r) | inr _ => True end.
Lemma go_keeps a ph F now : A a -> times F now -> cached F -> hinv a ph F -> keeps a F now (go e a ph true F now).
Proof.
  intros Aa T C H. destruct ph as [|pl|pl|pl|pl|pl|pl|pl|pl r|pl d|pl|pl d|pl]; cbn [go]; cbn [hinv] in H; unfold keeps.
  - destruct (validate e a F) as [pl| |] eqn:V; cbn [fst snd]; splits; auto. destruct (given (a_gds a)) eqn:Gv.
    + destruct (a_gds a) as [[|x g]|] eqn:G; try discriminate.
      assert (N : x :: g <> []) by discriminate. destruct (validate_gds _ _ _ _ _ G N V) as (A1 & A2 & A3 & A4 & A5).
      assert (Ok : gds_ok a (x :: g)) by (unfold gds_ok; auto).
      assert (Hg : hgood a F pl) by (exists (x :: g); splits; auto; apply A5; assumption).
      destruct (pl_export pl) eqn:X; simpl; [exact Hg|right; split; [exact Hg|]]. intros Y. congruence.
    + destruct (validate_other a F pl Gv V) as (A1 & A2 & A3). rewrite A2. simpl. left. auto.
  - cbn [fst snd]. pose proof H as (g & Ok & _ & I & _). rewrite I. splits.
    + apply times_put, T. + apply (cached_put_side a g (pl_cell pl)); auto. + simpl. apply (hgood_own a F pl g (pl_cell pl)); simpl; auto.
  - cbn [fst snd]. pose proof H as (g & Ok & _ & I & _). rewrite I. splits.
    + apply times_put, T. + apply (cached_put_side a g (pl_cell pl)); auto. + simpl. right. split; [apply (hgood_own a F pl g (pl_cell pl)); simpl; auto|].
      intros _. rewrite I. apply data_put_same.
  - destruct (pl_dummy pl) eqn:D; cbn [fst snd].
    + destruct H as [(_ & _ & H)|[H1 H2]]; [congruence|]. pose proof H1 as (g & Ok & _ & I & _ & [(_ & _ & Q)|(Q & _)] & _); [|congruence]. rewrite Q. cbn [hinv]. splits.
      * apply times_put, T. * apply (cached_put_side a g (pl_cell pl)); auto. * apply (hgood_own a F pl g (pl_cell pl)); simpl; auto.
      * intros X. rewrite data_put_other; [exact (H2 X)|]. apply export_not_dummy.
      * exact D.
    + splits; auto. simpl. destruct H as [(H & H' & _)|[H1 H2]]; [left; auto|right]. splits; auto. intros X. congruence.
  - cbn [fst snd]. destruct H as (H1 & H2 & D). pose proof H1 as (g & Ok & _ & I & _ & [(_ & _ & Q)|(Q & _)] & _); [|congruence]. rewrite Q. splits.
    + apply times_put, T. + apply (cached_put_side a g (pl_cell pl)); auto.
    + simpl. right. splits.
      * apply (hgood_own a F pl g (pl_cell pl)); simpl; auto.
      * intros X. rewrite data_put_other; [exact (H2 X)|]. apply export_not_dummy.
      * intros _. rewrite Q. apply data_put_same.
  - destruct (pl_errors pl) eqn:Er; [cbn [fst snd]; auto|]. destruct (negb _); [cbn [fst snd]; auto|].
    destruct H as [[H H']|(H1 & H2 & H3)]; [rewrite H; cbn [fst snd]; splits; auto; simpl; auto|].
    pose proof H1 as (g & Ok & Gd & _). rewrite Gd. cbn [fst snd]. splits; auto. destruct (a_cache a); simpl; splits; auto; split; auto.
  - destruct H as (H1 & H2 & H3). destruct (F (cache_path a (pl_input pl) (pl_cell pl))) as [fc|] eqn:FC; [|cbn [fst snd]; splits; auto; simpl; auto].
    destruct (F (pl_input pl)) as [fg|] eqn:FG; [|cbn [fst snd]; auto]. destruct (f_time fc <=? f_time fg)%Z eqn:Tm; cbn [fst snd]; splits; auto; simpl; auto.
    right. split; [exact H1|]. destruct H1 as [(g & Ok & _ & I & Dg & _) _]. rewrite I in *. unfold data in Dg. rewrite FG in Dg. simpl in Dg. injection Dg as Dg.
    apply Z.leb_gt in Tm. apply (C a g (pl_cell pl) fc fg (pl_layout pl) Ok FC FG Tm Dg).
  - cbn [fst snd]. splits; auto. cbn [hinv]. destruct H as (H1 & H2 & H3). split; [exact H1|]. destruct H1 as [Hg Er]. pose proof Hg as (g & Ok & Gd & I & Dg & Sm & Ch).
    destruct (Ch Er) as [Cc Ex].
    assert (exists fs_, F (pl_schematic pl) = Some fs_) as (fs_ & Fs).
    { destruct Sm as [(D1 & _ & D3)|(_ & _ & _ & D)]; [|exact (D Er)]. specialize (H3 D1). unfold data in H3. destruct (F (pl_schematic pl)); [eauto|discriminate]. }
    rewrite Fs. unfold pl_lvs_input, hexported in *. rewrite I in *. unfold result_ok, only_cell. destruct (pl_export pl) eqn:X.
    + specialize (H2 eq_refl). unfold data in H2. destruct (F (export_path a g (pl_cell pl))) as [[d t]|]; [|discriminate]. simpl in H2. injection H2 as ->.
      eexists. split; [reflexivity|]. exists (f_data fs_). destruct (eqb (tops_of (pl_layout pl)) [pl_cell pl]); [discriminate|]. reflexivity.
    + unfold data in Dg. destruct (F g) as [[d t]|]; [|discriminate]. simpl in Dg. injection Dg as ->.
      eexists. split; [reflexivity|]. exists (f_data fs_). destruct (eqb (tops_of (pl_layout pl)) [pl_cell pl]); [reflexivity|discriminate].
  - destruct H as (H1 & db & -> & H2). cbn [fst snd]. pose proof H1 as [(g & Ok & _ & I & _) _]. rewrite I. splits.
    + apply times_put, T. + apply cached_put_report; simpl; auto. + cbn [hinv]. split; [apply (lready_own a F pl g (pl_cell pl)); simpl; auto|exact H2].
  - destruct H as (H1 & H2). cbn [fst snd]. pose proof H1 as [(g & Ok & _ & I & Dg & _) _]. rewrite I. splits.
    + apply times_put, T.
    + apply cached_put_report; auto. intros l Dl. rewrite Dg in Dl. injection Dl as <-. destruct H2 as [s ->]. simpl. exists s. reflexivity.
    + assert (L1 : lready a (put F (lvsdb_path a g (pl_cell pl)) (stamp d now)) pl) by (apply (lready_own a F pl g (pl_cell pl)); simpl; auto).
      destruct (a_cache a); cbn [hinv].
      * split; [exact L1|]. exists d. rewrite I, data_put_same. auto.
      * right. split; [exact L1|]. unfold fits. rewrite I, data_put_same. destruct H2 as [s ->]. exists s. reflexivity.
  - destruct H as (H1 & db & H2 & H3). pose proof H1 as [(g & Ok & _ & I & Dg & _) _]. rewrite I in *.
    destruct (F (lvsdb_path a g (pl_cell pl))) as [f|] eqn:Ff; cbn [fst snd]; splits; auto.
    + apply times_put, T.
    + apply cached_put_cache; auto. intros l Dl. rewrite Dg in Dl. injection Dl as <-. unfold fits. rewrite H2. destruct H3 as [s ->]. exists s. reflexivity.
    + cbn [hinv]. split; [apply (lready_own a F pl g (pl_cell pl)); simpl; auto|]. exists db. rewrite I, data_put_other; [auto|].
      intros Q. symmetry in Q. revert Q. apply cache_not_run_dir. exact (proj2 (proj2 Ok)).
  - destruct H as (H1 & db & H2 & H3). pose proof H1 as [(g & Ok & _ & I & Dg & _) _]. rewrite I in *. cbn [fst snd]. splits.
    + apply times_put, T.
    + apply cached_put_cache; auto. intros l Dl. rewrite Dg in Dl. injection Dl as <-. unfold fits. rewrite H2. destruct H3 as [s ->]. exists s. reflexivity.
    + cbn [hinv]. right. split; [apply (lready_own a F pl g (pl_cell pl)); simpl; auto|]. unfold fits. rewrite I, data_put_other, H2; [destruct H3 as [s ->]; exists s; reflexivity|].
      intros Q. symmetry in Q. revert Q. apply cache_not_run_dir. exact (proj2 (proj2 Ok)).
  - destruct (F (read_path a pl)) as [[[| | |] ?]|]; cbn [fst snd]; auto.
Qed.
Lemma go_used a g ph F now db F' : a_gds a = Some g -> g <> [] -> hinv a ph F -> go e a ph true F now = (F', inr (Used db)) ->
  exists l, data F g = Some (Gds l) /\ right_database a l db.
Proof.
  intros G N H E. destruct ph as [|pl|pl|pl|pl|pl|pl|pl|pl r|pl d|pl|pl d|pl]; cbn [go] in E;
    try (repeat match type of E with context [match ?x with _ => _ end] => destruct x; try discriminate end; discriminate).
  cbn [hinv] in H. unfold read_path in E. destruct H as [[_ H]|[[(h & Ok & Gd & I & Dg & _ & Ch) Er] Fi]].
  { rewrite G in H. destruct g; [congruence|discriminate]. }
  destruct Ok as (_ & G' & _). rewrite G in G'. injection G' as <-. rewrite Gd in E. rewrite I in Fi. exists (pl_layout pl). split; [exact Dg|].
  exists (pl_cell pl). unfold fits, data in Fi. destruct (F (lvsdb_path a g (pl_cell pl))) as [[[| |p l s|] t]|]; try discriminate.
  simpl in Fi. destruct Fi as [s' Fi]. injection E as _ <-. exists s'. split; [apply Ch, Er|exact Fi].
Qed.
Lemma step_keeps w ev : hw w -> orderly A w ev -> hw (step e w ev).
Proof.
  intros (T & C & H) O. destruct ev as [d|p c k|a|wr|]; simpl in O; cbn [step].
  - split; [|split]; simpl; auto. intros p f X. specialize (T p f X). lia.
  - destruct O as (-> & W & R). split; [|split]; cbn [w_fs w_now w_run].
    + destruct c as [c|]; [apply times_put, T|]. intros q f. unfold put. destruct (eqb q p); [discriminate|apply T].
    + intros a g x fc fg l Oa X Y Tm D.
      assert (Wr : forall q, In q [export_path a g x; dummy_path a g x; lvsdb_path a g x; cache_path a g x] -> q <> p).
      { intros q I ->. apply (W a (proj1 Oa)). exact (gw _ _ _ _ Oa I). }
      rewrite put_other in X by (apply Wr; simpl; auto).
      unfold put in Y. destruct (eqb g p) eqn:Q.
      * destruct c as [c|]; [|discriminate]. injection Y as <-. simpl in Tm. specialize (T _ _ X). lia.
      * unfold fits. rewrite data_put_other by (apply Wr; simpl; auto). exact (C a g x fc fg l Oa X Y Tm D).
    + destruct (w_run w) as [[a ph]|]; [|exact I]. destruct H as [Aa H]. split; [exact Aa|]. apply (hinv_frame a ph (w_fs w)); [| |exact H].
      * intros q Rq. apply put_other. intros ->. exact (R a ph eq_refl Rq).
      * intros q Wq. apply put_other. intros ->. exact (W a Aa Wq).
  - destruct (w_run w) as [[b ph]|] eqn:Rn; [split; [exact T|split; [exact C|rewrite Rn; exact H]]|]. split; [|split]; simpl; auto.
  - subst wr. destruct (w_run w) as [[a ph]|] eqn:Rn; [|split; [exact T|split; [exact C|rewrite Rn; exact H]]]. destruct H as [Aa H].
    destruct (go_keeps a ph (w_fs w) (w_now w) Aa T C H) as (K1 & K2 & K3). destruct (go e a ph true (w_fs w) (w_now w)) as [F' [ph'|o]]; split; simpl; auto.
  - split; [|split]; simpl; auto.
Qed.
Lemma hw_genesis : hw genesis.
Proof. split; [|split]; simpl; auto; [intros p f X; discriminate|]. intros a g c fc fg l _ X. discriminate. Qed.
Lemma run_keeps evs w : hw w -> orderly_all A e w evs -> hw (run e w evs).
Proof.
  revert w. induction evs as [|ev evs IH]; intros w H O; [exact H|]. destruct O as [O1 O2]. change (run e w (ev :: evs)) with (run e (step e w ev) evs).
  apply IH; [apply step_keeps; assumption|exact O2].
Qed.
Lemma used_right w ev a g db : hw w -> orderly A w ev -> w_done (step e w ev) = (a, Used db) :: w_done w -> a_gds a = Some g -> g <> [] ->
  exists l, data_at w g = Some (Gds l) /\ right_database a l db.
Proof.
  intros (T & C & H) O D G N.
  assert (NE : forall x, w_done w = x :: w_done w -> False) by (intros x X; apply (f_equal (@List.length _)) in X; simpl in X; lia).
  destruct ev as [d|p c k|b|wr|]; cbn [step] in D; try (exfalso; exact (NE _ D)).
  - destruct (w_run w) as [[? ?]|]; exfalso; exact (NE _ D).
  - simpl in O. subst wr. destruct (w_run w) as [[b ph]|]; [|exfalso; exact (NE _ D)]. destruct H as [Ab H].
    destruct (go e b ph true (w_fs w) (w_now w)) as [F' [ph'|o]] eqn:E; [exfalso; exact (NE _ D)|]. simpl in D. injection D as -> ->.
    exact (go_used a g ph (w_fs w) (w_now w) db F' G N H E).
Qed.
End History.

(** ** the default directories *)
Lemma stem_of_run_dir g h c : run_dir_id g c = run_dir_id h c -> stem g = stem h.
Proof. unfold run_dir_id. apply append_inj_l. Qed.
Lemma writes_below a p : a_cache_dir a = None -> writes a p -> exists r, p = a_out a ++ r.
Proof.
  intros D (g & c & _ & _ & I). unfold export_path, dummy_path, lvsdb_path, cache_path, run_dir, cache_dir in I. rewrite D in I.
  destruct I as [<-|[<-|[<-|[<-|[]]]]]; rewrite <- ?app_assoc; eexists; reflexivity.
Qed.
Lemma default_apart (A : args -> Prop) out :
  (forall a, A a -> a_out a = out /\ a_cache_dir a = None) ->
  (forall a p r, A a -> reads a p -> p <> out ++ r) ->
  (forall a b g h, A a -> A b -> a_gds a = Some g -> a_gds b = Some h -> stem g = stem h -> g = h /\ a_pdk a = a_pdk b) -> apart A.
Proof.
  intros D R St. split.
  - intros a b Aa Ab. destruct (D a Aa) as [O1 C1], (D b Ab) as [O2 C2]. unfold cache_dir. rewrite C1, C2, O1, O2. auto.
  - intros a b p q Aa Ab Rp Wq ->. destruct (D b Ab) as [O2 C2]. destruct (writes_below b q C2 Wq) as [r ->]. rewrite O2 in Rp. exact (R a _ r Aa Rp eq_refl).
  - intros a b g h c d Aa Ab Ga Gb I. destruct (D a Aa) as [O1 C1], (D b Ab) as [O2 C2].
    unfold export_path, dummy_path, lvsdb_path, cache_path, run_dir, cache_dir in I. rewrite C1, O1, O2 in I.
    assert (L : forall x, (out ++ [".kpex_cache"]) ++ [a_pdk a] ++ g ++ [c ++ ".lvsdb.gz"]%string <> (out ++ [run_dir_id h d]) ++ [x]).
    { intros x E. apply (f_equal (@List.length _)) in E. rewrite !app_length in E. simpl in E. lia. }
    destruct I as [I|[I|[I|[]]]]; symmetry in I; exact (L _ I).
  - intros a b g h c Aa Ab Ga Gb _ _ E. apply (St a b g h Aa Ab Ga Gb). exact (stem_of_run_dir _ _ _ E).
Qed.

(** ** acceptance *)
Lemma engine_errors_gds a g : a_gds a = Some g -> (engine_errors a = false <-> a_magic a = true \/ a_fastcap a = true \/ a_fastercap a = true \/ a_25d a = true).
Proof. intros G. unfold engine_errors. rewrite G. destruct (a_magic a), (a_fastcap a), (a_fastercap a), (a_25d a); intuition discriminate. Qed.
Lemma log_level_ok_In a : log_level_ok a = true <-> In (casefold (a_log_level a)) log_levels.
Proof. apply mem_In. Qed.
Lemma diel_ok_Some a : diel_ok a = true <-> exists ch, parse_choice (a_diel a) = Some ch.
Proof. unfold diel_ok. destruct (parse_choice (a_diel a)) as [ch|]; split; intros H; eauto; try discriminate. destruct H as [ch H]. discriminate. Qed.
Lemma schematic_of_spec a F g c sp dm se : schematic_of a F g c = (sp, dm, se) ->
  (se = false <-> forall p, a_schematic a = Some p -> p <> [] -> F p <> None).
Proof.
  unfold schematic_of. destruct (a_schematic a) as [[|x r]|]; intros E; injection E as <- <- <-.
  - split; [intros _ p Q N|reflexivity]. injection Q as <-. congruence.
  - simpl. split.
    + intros X p Q N. injection Q as <-. destruct (F (x :: r)); [discriminate|discriminate X].
    + intros X. specialize (X _ eq_refl). destruct (F (x :: r)); [reflexivity|]. exfalso. apply X; [discriminate|reflexivity].
  - split; [intros _ p Q; discriminate|reflexivity].
Qed.
Lemma validate_gds_iff e a F g : a_gds a = Some g -> g <> [] ->
  (forall l c, acceptable_gds e a F g l c -> exists pl, validate e a F = VPlan pl /\ pl_errors pl = false) /\
  (forall pl, validate e a F = VPlan pl -> pl_errors pl = false -> acceptable_gds e a F g (pl_layout pl) (pl_cell pl)).
Proof.
  intros G N.
  set (e0 := negb (e_klayout e) || negb (e_tech e) || negb (e_script e) || engine_errors a). set (e1 := negb (log_level_ok a) || negb (diel_ok a)).
  assert (E0 : e0 = false <-> e_klayout e = true /\ e_tech e = true /\ e_script e = true /\ (a_magic a = true \/ a_fastcap a = true \/ a_fastercap a = true \/ a_25d a = true)).
  { unfold e0. rewrite !orb_false_iff, !negb_false_iff, (engine_errors_gds a g G). tauto. }
  assert (E1 : e1 = false <-> In (casefold (a_log_level a)) log_levels /\ exists ch, parse_choice (a_diel a) = Some ch).
  { unfold e1. rewrite orb_false_iff, !negb_false_iff, log_level_ok_In, diel_ok_Some. tauto. }
  split.
  - intros l c (K1 & K2 & K3 & K4 & K5 & K6 & _ & _ & Dg & Ch & Sc).
    assert (Z0 : e0 = false) by (apply E0; auto). assert (Z1 : e1 = false) by (apply E1; auto).
    unfold validate. rewrite G. destruct g as [|x g]; [congruence|]. simpl given. cbv iota. fold e0 e1.
    destruct (F (x :: g)) as [[d t]|] eqn:Fg; [|discriminate]. simpl in Dg. injection Dg as ->. simpl isfile. rewrite Fg. simpl negb. cbv iota.
    assert (FIN : forall d ex, exists pl, (let '(sp, dummy, se) := schematic_of a F (x :: g) d in
      VPlan (Plan (Some (x :: g)) (x :: g) d l ex sp dummy (e0 || false || se || e1))) = VPlan pl /\ pl_errors pl = false).
    { intros d ex. destruct (schematic_of a F (x :: g) d) as [[sp dm] se] eqn:Q. eexists. split; [reflexivity|]. simpl.
      rewrite Z0, Z1. rewrite (proj2 (schematic_of_spec _ _ _ _ _ _ _ Q) Sc). reflexivity. }
    unfold chosen in Ch. destruct (a_cell a) as [[|y r]|] eqn:C.
    + rewrite Ch. apply FIN.
    + destruct Ch as [-> M]. apply mem_In in M. rewrite M. simpl negb. destruct (eqb (tops_of l) [String y r]); apply FIN.
    + rewrite Ch. apply FIN.
  - intros pl V Er. destruct (validate_gds _ _ _ _ _ G N V) as (A1 & A2 & A3 & A4 & A5). destruct (A5 Er) as [Ch Ex].
    assert (Z : e0 = false /\ e1 = false).
    { revert V Er. unfold validate. rewrite G. destruct g as [|x g]; [congruence|]. simpl given. cbv iota. fold e0 e1.
      destruct (isfile F (x :: g)); [|discriminate]. simpl negb. cbv iota. destruct (F (x :: g)) as [[[l| | |] t]|]; try discriminate.
      assert (FIN : forall d ex ce, (let '(sp, dummy, se) := schematic_of a F (x :: g) d in
        VPlan (Plan (Some (x :: g)) (x :: g) d l ex sp dummy (e0 || ce || se || e1))) = VPlan pl -> pl_errors pl = false -> e0 = false /\ e1 = false).
      { intros d ex ce. destruct (schematic_of a F (x :: g) d) as [[sp dm] se]. intros E. injection E as <-. simpl. rewrite !orb_false_iff. tauto. }
      destruct (a_cell a) as [[|y r]|].
      - destruct (tops_of l) as [|u [|v w]]; apply FIN.
      - destruct (eqb (tops_of l) [String y r]); [apply FIN|]. destruct (mem (String y r) (cells_of l)); [apply FIN|discriminate].
      - destruct (tops_of l) as [|u [|v w]]; apply FIN. }
    destruct Z as [Z0 Z1]. apply E0 in Z0 as (Z2 & Z3 & Z4 & Z5). apply E1 in Z1 as (Z6 & Z7). unfold acceptable_gds.
    assert (Sc : forall sp, a_schematic a = Some sp -> sp <> [] -> F sp <> None).
    { intros sp Q Ns. destruct A4 as [(D1 & D2 & D3)|(D1 & D2 & D3 & D4)].
      - rewrite Q in D2. destruct sp; [congruence|discriminate].
      - rewrite Q in D2. injection D2 as ->. destruct (D4 Er). congruence. }
    repeat match goal with |- _ /\ _ => split end; auto.
Qed.

(** ** names of run directories *)
Lemma plain_run_dir s t c d : plain s = true -> plain t = true -> (s ++ "__" ++ c)%string = (t ++ "__" ++ d)%string -> s = t /\ c = d.
Proof.
  revert t. induction s as [|x s IH]; intros [|y t] P Q E.
  - simpl in E. injection E as ->. auto.
  - exfalso. cbn [append] in E. injection E as <- E. cbn [plain] in Q. rewrite eqb_refl in Q. destruct t as [|z t]; [discriminate|]. cbn [append] in E. injection E as <- _. rewrite eqb_refl in Q. discriminate.
  - exfalso. cbn [append] in E. injection E as -> E. cbn [plain] in P. rewrite eqb_refl in P. destruct s as [|z s]; [discriminate|]. cbn [append] in E. injection E as -> _. rewrite eqb_refl in P. discriminate.
  - cbn [append] in E. injection E as <- E. cbn [plain] in P, Q. apply andb_true_iff in P as [_ P]. apply andb_true_iff in Q as [_ Q].
    destruct (IH t P Q E) as [<- ->]. auto.
Qed.

(** ** rejection *)
Section Refused.
Variables (e : env) (a : args) (g : list string) (F0 : fs).
Hypothesis G : a_gds a = Some g.
Hypothesis Ng : g <> [].
Hypothesis Bad : forall l c, ~ acceptable_gds e a F0 g l c.
Definition same_but_scratch (F : fs) : Prop := forall q, (forall c, q <> export_path a g c /\ q <> dummy_path a g c) -> F q = F0 q.
Definition doomed (ph : phase) : Prop :=
  match ph with
  | PValidate => True
  | PExport pl | PExported pl | PDummy pl | PDecide pl =>
      pl_errors pl = true /\ pl_input pl = g /\ (pl_dummy pl = true -> pl_schematic pl = dummy_path a g (pl_cell pl))
  | PDummied pl => pl_errors pl = true /\ pl_input pl = g /\ pl_dummy pl = true /\ pl_schematic pl = dummy_path a g (pl_cell pl)
  | _ => False
  end.
Lemma same_put F p f c : same_but_scratch F -> p = export_path a g c \/ p = dummy_path a g c -> same_but_scratch (put F p f).
Proof. intros H P q Q. rewrite put_other; [apply H, Q|]. destruct (Q c) as [Q1 Q2]. destruct P as [->| ->]; assumption. Qed.
Lemma refused_step ph F now wr : doomed ph -> (ph = PValidate -> F = F0) -> same_but_scratch F ->
  match go e a ph wr F now with
  | (F', inl ph') => doomed ph' /\ ph' <> PValidate /\ same_but_scratch F'
  | (F', inr o) => (o = Rejected \/ o = Raised) /\ same_but_scratch F'
  end.
Proof.
  intros D V Sm. destruct ph as [|pl|pl|pl|pl|pl|pl|pl|pl r|pl d|pl|pl d|pl]; cbn [go doomed] in *; try contradiction.
  - rewrite (V eq_refl) in *. destruct (validate e a F0) as [pl| |] eqn:Va; auto.
    destruct (validate_gds _ _ _ _ _ G Ng Va) as (A1 & A2 & A3 & A4 & A5).
    assert (Er : pl_errors pl = true).
    { destruct (pl_errors pl) eqn:Q; [reflexivity|]. exfalso. apply (Bad (pl_layout pl) (pl_cell pl)). apply (proj2 (validate_gds_iff e a F0 g G Ng) pl Va Q). }
    assert (Sc : pl_dummy pl = true -> pl_schematic pl = dummy_path a g (pl_cell pl)) by (destruct A4 as [(? & ? & ?)|(? & _)]; [auto|congruence]).
    destruct (pl_export pl); split; [cbn; auto|split; [discriminate|exact Sm]|cbn; auto|split; [discriminate|exact Sm]].
  - destruct D as (D1 & D2 & D3). rewrite D2. split; [cbn; auto|]. split; [discriminate|]. apply (same_put _ _ _ (pl_cell pl)); auto.
  - destruct D as (D1 & D2 & D3). rewrite D2. split; [cbn; auto|]. split; [discriminate|]. apply (same_put _ _ _ (pl_cell pl)); auto.
  - destruct D as (D1 & D2 & D3). destruct (pl_dummy pl) eqn:Q.
    + split; [cbn; auto|]. split; [discriminate|]. rewrite (D3 eq_refl). apply (same_put _ _ _ (pl_cell pl)); auto.
    + split; [cbn; split; [auto|split; [auto|congruence]]|]. split; [discriminate|exact Sm].
  - destruct D as (D1 & D2 & D3 & D4). rewrite D4. split; [cbn; auto|]. split; [discriminate|]. apply (same_put _ _ _ (pl_cell pl)); auto.
  - destruct D as (D1 & D2 & D3). rewrite D1. auto.
Qed.
Lemma refused_run n wr w ph : w_run w = Some (a, ph) -> doomed ph -> (ph = PValidate -> w_fs w = F0) -> same_but_scratch (w_fs w) ->
  same_but_scratch (w_fs (run e w (repeat (Go wr) n))) /\
  (w_done (run e w (repeat (Go wr) n)) = w_done w \/ exists o, w_done (run e w (repeat (Go wr) n)) = (a, o) :: w_done w /\ (o = Rejected \/ o = Raised)).
Proof.
  revert w ph. induction n as [|n IH]; intros w ph R D V Sm; [simpl; auto|]. cbn [repeat]. change (run e w (Go wr :: repeat (Go wr) n)) with (run e (step e w (Go wr)) (repeat (Go wr) n)).
  pose proof (refused_step ph (w_fs w) (w_now w) wr D V Sm) as K. destruct (go e a ph wr (w_fs w) (w_now w)) as [F' [ph'|o]] eqn:E.
  - assert (Q : step e w (Go wr) = World F' (w_now w) (Some (a, ph')) (w_done w)) by (simpl; rewrite R, E; reflexivity). rewrite Q. destruct K as (K1 & K2 & K3).
    apply (IH (World F' (w_now w) (Some (a, ph')) (w_done w)) ph'); auto. intros X. congruence.
  - assert (Q : step e w (Go wr) = World F' (w_now w) None ((a, o) :: w_done w)) by (simpl; rewrite R, E; reflexivity). rewrite Q. destruct K as [K1 K2].
    assert (Id : forall m u, w_run u = None -> run e u (repeat (Go wr) m) = u).
    { clear. induction m; intros u Ru; [reflexivity|]. cbn [repeat]. change (run e u (Go wr :: repeat (Go wr) m)) with (run e (step e u (Go wr)) (repeat (Go wr) m)).
      assert (step e u (Go wr) = u) as -> by (simpl; rewrite Ru; reflexivity). apply IHm, Ru. }
    rewrite Id by reflexivity. simpl. split; [exact K2|]. right. eauto.
Qed.
End Refused.
