(** C101: the STL file of a net or of a dielectric shows the surface of this body, every facet in its place and facing outwards.
    Long names of nets stop the run although FasterCap's input is complete, and files of an earlier run are not removed. *)
From Coq Require Import ZArith Reals Lra Lia Psatz String Ascii List Permutation.
From Flocq Require Import Core.Core IEEE754.BinarySingleNaN.
From Verif Require Import PyBase PyLib PyStr FP_Model FP_Spec FP_Proofs NF_Model NF_Spec NF_Text TG_Model TG_Spec TG_Proofs ST_Model ST_Spec ST_Proofs.
From Verif Require FG_Model FG_Spec FG_Proofs FG_Props TG_Props CL_Proofs EN_Proofs.
Import ListNotations.
Local Close Scope Qc_scope.
Local Open Scope string_scope.
Local Open Scope list_scope.
Local Open Scope R_scope.

(** ** files *)
Section Each.
Variable limit : nat.
Lemma each_untouched : forall todo fs name, (forall ts, In (name, ts) todo -> ts = []) -> dget (fst (write_each limit todo fs)) name = dget fs name.
Proof.
  induction todo as [|[n ts] r IH]; intros fs name N; [reflexivity|]. cbn in *. unfold write_as_stl. destruct ts as [|t ts]; [apply IH; auto|].
  destruct (can_open limit n); [|reflexivity]. rewrite IH by auto. apply dget_dset_other. intros E. subst n. now specialize (N (t :: ts) (or_introl eq_refl)).
Qed.
Lemma each_other todo fs name : ~ In name (map fst todo) -> dget (fst (write_each limit todo fs)) name = dget fs name.
Proof.
  intros N. apply each_untouched. intros ts I. destruct N. apply in_map_iff. now exists (name, ts).
Qed.
Lemma each_written : forall todo fs new name ts, NoDup (map fst todo) -> write_each limit todo fs = (new, true) -> In (name, ts) todo -> ts <> [] ->
  dget new name = Some (stl_text ts).
Proof.
  induction todo as [|[n us] r IH]; intros fs new name ts D E I N; [destruct I|]. cbn in *. inversion D as [|? ? D1 D2]; subst. destruct I as [I|I].
  - injection I as -> ->. unfold write_as_stl in E. destruct ts as [|t ts]; [now destruct N|]. destruct (can_open limit name); [|discriminate].
    assert (O := each_other r (dset fs name (stl_text (t :: ts))) name D1). rewrite E in O. cbn in O. rewrite O. apply dget_dset_same.
  - destruct (write_as_stl limit n us fs) as [fs'|] eqn:W; [|discriminate]. now apply (IH fs').
Qed.
Lemma each_stops : forall todo fs, snd (write_each limit todo fs) = false <-> exists name ts, In (name, ts) todo /\ ts <> [] /\ can_open limit name = false.
Proof.
  induction todo as [|[n ts] r IH]; intros fs; cbn.
  - split; [discriminate|intros (a & b & [] & _)].
  - unfold write_as_stl. destruct ts as [|t ts].
    + rewrite IH. split; [intros (a & b & I & N & C); exists a, b; tauto|]. intros (a & b & [I|I] & N & C); [injection I as <- <-; now destruct N|]. now exists a, b.
    + destruct (can_open limit n) eqn:C.
      * rewrite IH. split; [intros (a & b & I & N & X); exists a, b; tauto|]. intros (a & b & [I|I] & N & X); [injection I as <- <-; congruence|]. now exists a, b.
      * split; [intros _; exists n, (t :: ts); repeat split; [now left|discriminate|exact C]|reflexivity].
Qed.
End Each.
Definition diel_name (prefix m : string) : string := (prefix ++ "diel_" ++ m ++ ".stl")%string.
Definition net_name (prefix n : string) : string := (prefix ++ "cond_" ++ n ++ ".stl")%string.
Lemma diel_name_inj p a b : diel_name p a = diel_name p b -> a = b.
Proof. unfold diel_name. intros H. apply EN_Proofs.append_inj_r in H. apply EN_Proofs.append_inj_r in H. now apply CL_Proofs.append_inj_l in H. Qed.
Lemma net_name_inj p a b : net_name p a = net_name p b -> a = b.
Proof. unfold net_name. intros H. apply EN_Proofs.append_inj_r in H. apply EN_Proofs.append_inj_r in H. now apply CL_Proofs.append_inj_l in H. Qed.
Lemma names_apart p a b : diel_name p a <> net_name p b.
Proof. unfold diel_name, net_name. intros H. apply EN_Proofs.append_inj_r in H. discriminate H. Qed.
Lemma map_nodup {A B} (f : A -> B) (l : list A) : (forall a b, f a = f b -> a = b) -> NoDup l -> NoDup (map f l).
Proof. intros I. induction 1 as [|a l N D IH]; constructor; [|exact IH]. intros J. apply in_map_iff in J. destruct J as (b & E & J). apply I in E. now subst. Qed.
Lemma names_distinct {A} p (f : string -> A) (g : string -> A) (mats nets : list string) : NoDup mats -> NoDup nets ->
  NoDup (map (@fst string A) (map (fun m => (diel_name p m, f m)) mats ++ map (fun n => (net_name p n, g n)) nets)).
Proof.
  intros M N. rewrite map_app, !map_map. cbn. assert (X := map_nodup (diel_name p) mats (diel_name_inj p) M). assert (Y := map_nodup (net_name p) nets (net_name_inj p) N).
  clear - X Y. induction mats as [|m r IH]; cbn; [exact Y|]. cbn in X. inversion X; subst. constructor; [|now apply IH]. rewrite in_app_iff. intros [I|I]; [contradiction|].
  apply in_map_iff in I. destruct I as (b & E & _). symmetry in E. now apply names_apart in E.
Qed.

Section Dump.
Variables (limit : nat) (prefix : string) (mats nets : list string).
Hypothesis mats_distinct : NoDup mats.
Hypothesis nets_distinct : NoDup nets.
Lemma dump_net diel cond old new net : dump_stl limit prefix mats nets diel cond old = (new, true) -> In net nets -> FG_Model.collect_cond cond net <> [] ->
  dget new (net_name prefix net) = Some (stl_text (FG_Model.collect_cond cond net)).
Proof.
  intros E I N. unfold dump_stl in E. eapply each_written; [|exact E| |exact N].
  - exact (names_distinct prefix (fun m => FG_Model.collect_diel diel cond m) (fun n => FG_Model.collect_cond cond n) mats nets mats_distinct nets_distinct).
  - apply in_or_app. right. apply in_map_iff. now exists net.
Qed.
Lemma dump_diel diel cond old new m : dump_stl limit prefix mats nets diel cond old = (new, true) -> In m mats -> FG_Model.collect_diel diel cond m <> [] ->
  dget new (diel_name prefix m) = Some (stl_text (FG_Model.collect_diel diel cond m)).
Proof.
  intros E I N. unfold dump_stl in E. eapply each_written; [|exact E| |exact N].
  - exact (names_distinct prefix (fun m => FG_Model.collect_diel diel cond m) (fun n => FG_Model.collect_cond cond n) mats nets mats_distinct nets_distinct).
  - apply in_or_app. left. apply in_map_iff. now exists m.
Qed.
End Dump.

(** ** bodies *)
Ltac ifs := match goal with |- context [if ?c then _ else _] => destruct c end.
Definition net_side (net : string) (k : string * option string) (v : list TG_Model.tri) : list TG_Model.tri := if eqb (fst k) net then map FG_Model.tri_rev v else [].
Definition out_side (m : string) (k : string * option string) (v : list TG_Model.tri) : list TG_Model.tri := if eqb (snd k) (Some m) then v else [].
Definition on_side (m : string) (k : option string * option string) (v : list TG_Model.tri) : list TG_Model.tri :=
  if eqb (fst k) (Some m) then v else if eqb (snd k) (Some m) then map FG_Model.tri_rev v else [].
Lemma net_side_app net k a b : net_side net k (a ++ b) = net_side net k a ++ net_side net k b. Proof. unfold net_side. ifs; [apply map_app|reflexivity]. Qed.
Lemma out_side_app m k a b : out_side m k (a ++ b) = out_side m k a ++ out_side m k b. Proof. unfold out_side. now ifs. Qed.
Lemma on_side_app m k a b : on_side m k (a ++ b) = on_side m k a ++ on_side m k b. Proof. unfold on_side. ifs; [reflexivity|]. ifs; [apply map_app|reflexivity]. Qed.
Lemma net_tris dbu l net : Permutation (FG_Model.collect_cond (cond_data dbu l) net)
  (flat_map (fun s => if of_net net s then map reversed (cond_tris dbu s) else []) l).
Proof.
  unfold FG_Model.collect_cond, cond_data.
  assert (X := gather_all (net_side net) (net_side_app net) cond_key (cond_tris dbu) l []).
  cbn [flat_map app] in X. etransitivity; [exact X|]. apply Permutation_refl'. apply flat_map_ext. intros s. unfold of_net, net_of, net_side. change (net_and_outside s) with (cond_key s).
  destruct (eqb (fst (cond_key s)) net) eqn:Q; [apply eqb_eq in Q; rewrite Q; now rewrite String.eqb_refl|]. apply eqb_neq in Q. destruct (String.eqb_spec (fst (cond_key s)) net); [contradiction|reflexivity].
Qed.
Lemma is_mat m (o : option string) : eqb o (Some m) = is_material m o.
Proof.
  destruct (eqb o (Some m)) eqn:Q; [apply eqb_eq in Q; subst o; cbn; now rewrite String.eqb_refl|]. apply eqb_neq in Q. destruct o as [x|]; cbn; [|reflexivity].
  destruct (String.eqb_spec x m) as [-> |]; [contradiction|reflexivity].
Qed.
Lemma around_tris dbu l m : Permutation (flat_map (fun e => if eqb (snd (fst e)) (Some m) then snd e else []) (cond_data dbu l))
  (flat_map (fun s => if around m s then cond_tris dbu s else []) l).
Proof.
  unfold cond_data.
  assert (X := gather_all (out_side m) (out_side_app m) cond_key (cond_tris dbu) l []).
  cbn [flat_map app] in X. etransitivity; [exact X|]. apply Permutation_refl'. apply flat_map_ext. intros s. unfold around, out_side. change (net_and_outside s) with (cond_key s). now rewrite is_mat.
Qed.
Lemma side_tris dbu l m : Permutation (flat_map (FG_Proofs.side m) (diel_data dbu l)) (flat_map (fun s => on_side m (diel_key s) (diel_tris dbu s)) l).
Proof.
  unfold diel_data.
  assert (X := gather_all (on_side m) (on_side_app m) diel_key (diel_tris dbu) l []).
  cbn [flat_map app] in X. exact X.
Qed.
Lemma shown_back ts fs : Forall2 shows (map reversed ts) fs <-> Forall2 (fun t f => shows (reversed t) f) ts fs.
Proof. revert fs. induction ts as [|t ts IH]; intros fs; split; intros F; inversion F; subst; constructor; auto; now apply IH. Qed.
Lemma flat_map_map {A B C} (f : B -> C) (g : A -> list B) l : map f (flat_map g l) = flat_map (fun a => map f (g a)) l.
Proof. induction l as [|a l IH]; [reflexivity|]. cbn. now rewrite map_app, IH. Qed.
Lemma diel_side_tris dbu dl diel m : Forall two_materials dl -> FG_Model.combine_diel (diel_data dbu dl) = Some diel ->
  Permutation (flat_map (FG_Proofs.side m) diel) (flat_map (fun s => on_side m (diel_key s) (diel_tris dbu s)) dl).
Proof.
  intros TM combine. rewrite Forall_forall in TM.
  etransitivity; [|apply side_tris]. apply FG_Proofs.combine_side; [apply TG_Props.diel_wf| |exact combine].
    intros k K. assert (X : exists s, In s dl /\ diel_key s = k).
    { clear - K. unfold diel_data in K. assert (Y : forall l (d0 : dict (option string * option string) (list TG_Model.tri)), In k (dkeys (fold_left (fun d1 s => TG_Model.append d1 (diel_key s) (diel_tris dbu s)) l d0)) -> In k (dkeys d0) \/ exists s, In s l /\ diel_key s = k).
      { induction l as [|s l IH]; intros d0 J; [now left|]. cbn in J. destruct (IH _ J) as [X|(s' & A & B)]; [|right; exists s'; split; [now right|exact B]].
        unfold TG_Model.append in X. apply dkeys_dset_in in X. destruct X as [-> |X]; [right; exists s; split; [now left|reflexivity]|now left]. }
      destruct (Y dl [] K) as [[]|X]. exact X. }
    destruct X as (s & Is & <-). intros E. specialize (TM s Is). apply TM. change (materials s) with (diel_key s). destruct (diel_key s) as [a b]. cbn in E. injection E as E1 E2. exact E1.
Qed.
Lemma mat_tris dbu dl cl diel m : Forall two_materials dl -> FG_Model.combine_diel (diel_data dbu dl) = Some diel ->
  Permutation (FG_Model.collect_diel diel (cond_data dbu cl) m)
    (flat_map (fun s => on_side m (diel_key s) (diel_tris dbu s)) dl ++ flat_map (fun s => if around m s then cond_tris dbu s else []) cl).
Proof. intros TM C. apply Permutation_app; [now apply diel_side_tris|apply around_tris]. Qed.
Lemma some_map {A B} (f : A -> B) l : map f l <> [] <-> l <> []. Proof. destruct l; [easy|]. cbn. split; discriminate. Qed.
Lemma some_in {A} (l : list A) : l <> [] <-> exists a, In a l.
Proof. destruct l as [|a l]; split; try easy; [now intros (a & [])|]. intros _. exists a. now left. Qed.
Lemma some_flat {A B} (f : A -> list B) l : flat_map f l <> [] <-> exists s, In s l /\ f s <> [].
Proof.
  rewrite some_in. split.
  - intros (b & I). apply in_flat_map in I. destruct I as (s & I & J). exists s. split; [exact I|]. rewrite some_in. now exists b.
  - intros (s & I & N). rewrite some_in in N. destruct N as (b & J). exists b. apply in_flat_map. now exists s.
Qed.
Lemma some_perm {A} (a b : list A) : Permutation a b -> (a <> [] <-> b <> []).
Proof. intros P. rewrite !some_in. split; intros (x & I); exists x; [|apply Permutation_sym in P]; eapply Permutation_in; eassumption. Qed.
Lemma some_app {A} (a b : list A) : a ++ b <> [] <-> a <> [] \/ b <> [].
Proof. destruct a as [|x a]; cbn; [tauto|]. split; [now left|discriminate]. Qed.
Lemma some_cond dbu s : cond_tris dbu s <> [] <-> exists g, In g (cond_triangles s).
Proof. rewrite <- some_in. destruct s; cbn; apply some_map. Qed.
Lemma some_diel dbu s : diel_tris dbu s <> [] <-> exists g, In g (diel_triangles s).
Proof. rewrite <- some_in. destruct s; cbn; apply some_map. Qed.
Lemma net_some dbu cl net : FG_Model.collect_cond (cond_data dbu cl) net <> [] <-> has_net net cl.
Proof.
  rewrite (some_perm _ _ (net_tris dbu cl net)), some_flat. unfold has_net, of_net. split.
  - intros (s & I & N). destruct (String.eqb_spec (net_of s) net) as [E|E]; [|now destruct N]. rewrite some_map in N. apply some_cond in N. destruct N as (g & J). now exists s, g.
  - intros (s & g & I & E & J). exists s. split; [exact I|]. rewrite E, String.eqb_refl, some_map. apply some_cond. now exists g.
Qed.
Lemma mat_some dbu dl cl diel m : Forall two_materials dl -> FG_Model.combine_diel (diel_data dbu dl) = Some diel ->
  (FG_Model.collect_diel diel (cond_data dbu cl) m <> [] <-> has_material m dl cl).
Proof.
  intros TM C. rewrite (some_perm _ _ (mat_tris dbu dl cl diel m TM C)), some_app, !some_flat. unfold has_material.
  assert (X : forall s, on_side m (diel_key s) (diel_tris dbu s) <> [] <-> touches m s = true /\ exists g, In g (diel_triangles s)).
  { intros s. unfold on_side, touches. rewrite !is_mat. change (diel_key s) with (materials s). rewrite <- (some_diel dbu). destruct (is_material m (fst (materials s))); cbn; [tauto|].
    destruct (is_material m (snd (materials s))); [rewrite some_map; tauto|]. split; [intros N; now destruct N|intros [N _]; discriminate]. }
  assert (Y : forall s, (if around m s then cond_tris dbu s else []) <> [] <-> around m s = true /\ exists g, In g (cond_triangles s)).
  { intros s. rewrite <- (some_cond dbu). destruct (around m s); [tauto|]. split; [intros N; now destruct N|intros [N _]; discriminate]. }
  split.
  - intros [(s & I & N)|(s & I & N)]; [apply X in N|apply Y in N]; destruct N as (N & g & J); [left|right]; now exists s, g.
  - intros [(s & g & I & N & J)|(s & g & I & N & J)]; [left|right]; exists s; (split; [exact I|]); [apply X|apply Y]; split; eauto.
Qed.

(** * C101 *)
(** A text has one reading at most. *)
Theorem C101_unique : forall text fs gs, stl text fs -> stl text gs -> fs = gs.
Proof. exact stl_unique. Qed.
Section C101.
Variables (n d : Z) (limit : nat) (prefix : string) (mats nets : list string) (dl : list diel_surface) (cl : list cond_surface) (diel : dict FG_Model.hkey (list TG_Model.tri)).
Variables (old new : files).
Hypothesis G : grid_ok n d.
Hypothesis mats_distinct : NoDup mats.
Hypothesis nets_distinct : NoDup nets.
Hypothesis CO : Forall cond_ok cl.
Hypothesis DO : Forall diel_ok dl.
Hypothesis TM : Forall two_materials dl.
Hypothesis combine : FG_Model.combine_diel (diel_data (lit n d) dl) = Some diel.
Hypothesis ran : dump_stl limit prefix mats nets diel (cond_data (lit n d) cl) old = (new, true).
Notation u := (IZR n / IZR d).
(** The file of a net shows its surfaces, each triangle once; they face out of the conductor. *)
Theorem C101_conductor : forall net, In net nets -> has_net net cl ->
  exists text fs, dget new (stl_name prefix "cond" net) = Some text /\ stl text fs /\ made_of (cond_facets u outwards) (filter (of_net net) cl) fs.
Proof.
  intros net I H. rewrite Forall_forall in CO.
  assert (P := net_tris (lit n d) cl net). assert (NE := proj2 (net_some (lit n d) cl net) H). set (ts := FG_Model.collect_cond (cond_data (lit n d) cl) net) in *.
  exists (stl_text ts).
  destruct (made (of_net net) (fun s => if of_net net s then cond_tris (lit n d) s else []) (cond_facets u outwards) cl) as (fss & A & B).
  { intros s' I' W. rewrite W. apply cond_out; [exact G|now apply CO]. }
  { intros s' W. now rewrite W. }
  assert (P' : Permutation (map reversed ts) (flat_map (fun s => if of_net net s then cond_tris (lit n d) s else []) cl)).
  { etransitivity; [apply Permutation_map; exact P|]. rewrite flat_map_map. apply Permutation_refl'. apply flat_map_ext. intros a. destruct (of_net net a); [|reflexivity].
    rewrite map_map. erewrite map_ext; [apply map_id|]. intros t. apply reversed2. }
  destruct (permuted _ _ _ P' B) as (fs & C & D). exists fs. split; [exact (dump_net limit prefix mats nets mats_distinct nets_distinct diel _ old new net ran I NE)|].
  split; [apply stl_reads; now apply shown_back|]. now exists fss.
Qed.
(** The file of a dielectric shows its surfaces, with other dielectrics and with conductors; they face away from the material. *)
Theorem C101_dielectric : forall m, In m mats -> has_material m dl cl ->
  exists text fs ds cs, dget new (stl_name prefix "diel" m) = Some text /\ stl text fs /\ Permutation fs (ds ++ cs) /\
    made_of (diel_facets u m) (filter (touches m) dl) ds /\ made_of (cond_facets u inwards) (filter (around m) cl) cs.
Proof.
  intros m I H. rewrite Forall_forall in CO, DO.
  assert (P := mat_tris (lit n d) dl cl diel m TM combine). assert (NE := proj2 (mat_some (lit n d) dl cl diel m TM combine) H).
  set (ts := FG_Model.collect_diel diel (cond_data (lit n d) cl) m) in *.
  destruct (made (touches m) (fun s => map reversed (on_side m (diel_key s) (diel_tris (lit n d) s))) (diel_facets u m) dl) as (dss & A & B).
  { intros s Is W. unfold on_side. rewrite !is_mat. change (diel_key s) with (materials s). unfold touches in W. destruct (is_material m (fst (materials s))) eqn:M1.
    - destruct (diel_shown n d G true s (DO s Is)) as (fs & X & Y). exists fs. split; [exact X|]. exists (diel_side s). split; [|exact Y]. left.
      rewrite <- is_mat in M1. apply eqb_eq in M1. now split.
    - cbn in W. rewrite W. destruct (diel_shown n d G false s (DO s Is)) as (fs & X & Y). exists fs. split.
      + rewrite map_map. erewrite map_ext; [rewrite map_id; exact X|]. intros t. apply reversed2.
      + exists (opposite (diel_side s)). rewrite <- is_mat in W. apply eqb_eq in W. split; [right; now split|].
        assert (O : opposite (opposite (diel_side s)) = diel_side s) by (destruct (diel_side s) as [[a b] c]; cbn; rewrite !Ropp_involutive; reflexivity).
        destruct s; rewrite O; exact Y. }
  { intros s W. unfold on_side, touches in *. rewrite !is_mat. change (diel_key s) with (materials s). apply Bool.orb_false_elim in W. destruct W as [-> ->]. reflexivity. }
  destruct (made (around m) (fun s => if around m s then map reversed (cond_tris (lit n d) s) else []) (cond_facets u inwards) cl) as (css & C & D).
  { intros s Is W. rewrite W. apply cond_in; [exact G|now apply CO]. }
  { intros s W. now rewrite W. }
  assert (P' : Permutation (map reversed ts) (flat_map (fun s => map reversed (on_side m (diel_key s) (diel_tris (lit n d) s))) dl ++ flat_map (fun s => if around m s then map reversed (cond_tris (lit n d) s) else []) cl)).
  { etransitivity; [apply Permutation_map; exact P|]. rewrite map_app, !flat_map_map. apply Permutation_refl'. f_equal. apply flat_map_ext. intros a. now destruct (around m a). }
  destruct (permuted _ _ _ P' (Forall2_app B D)) as (fs & E & F). exists (stl_text ts), fs, (concat dss), (concat css).
  split; [exact (dump_diel limit prefix mats nets mats_distinct nets_distinct diel _ old new m ran I NE)|].
  split; [apply stl_reads; now apply shown_back|]. split; [exact F|]. split; [exists dss|exists css]; split; try assumption; apply Permutation_refl.
Qed.
End C101.
(** No other file is touched, whether or not the run goes on; nor is the file of a net or a material without a surface. *)
Theorem C101_only : forall n d limit prefix mats nets dl cl diel old name, Forall two_materials dl -> FG_Model.combine_diel (diel_data (lit n d) dl) = Some diel ->
  (forall m, In m mats -> has_material m dl cl -> name <> stl_name prefix "diel" m) -> (forall net, In net nets -> has_net net cl -> name <> stl_name prefix "cond" net) ->
  dget (fst (dump_stl limit prefix mats nets diel (cond_data (lit n d) cl) old)) name = dget old name.
Proof.
  intros n d limit prefix mats nets dl cl diel old name TM C M N. unfold dump_stl. apply each_untouched. intros ts I. apply in_app_or in I.
  destruct I as [I|I]; apply in_map_iff in I; destruct I as (x & E & I); injection E as E1 E2; symmetry in E1.
  - destruct ts as [|t ts]; [reflexivity|]. exfalso. apply (M x I); [|exact E1]. apply (mat_some (lit n d) dl cl diel x TM C). rewrite E2. discriminate.
  - destruct ts as [|t ts]; [reflexivity|]. exfalso. apply (N x I); [|exact E1]. apply (net_some (lit n d) cl x). rewrite E2. discriminate.
Qed.
(** All files are written, unless a body with a surface has a name that is too long for a file or has a slash in it. *)
Definition bad_name (limit : nat) (name : string) : Prop := (limit < String.length name)%nat \/ exists a b, name = (a ++ "/" ++ b)%string.
Lemma slash_in s : has_slash s = true <-> exists a b, s = (a ++ "/" ++ b)%string.
Proof.
  induction s as [|c s IH]; cbn; [split; [discriminate|intros ([|x a] & b & E); discriminate E]|]. destruct (Ascii.eqb_spec c "/") as [-> |N]; cbn.
  - split; [intros _; now exists "", s|reflexivity].
  - rewrite IH. split; intros (a & b & E); [exists (String c a), b; cbn; now rewrite E|]. destruct a as [|x a]; injection E as -> E; [contradiction|now exists a, b].
Qed.
Lemma bad_open limit name : can_open limit name = false <-> bad_name limit name.
Proof.
  unfold can_open, bad_name. rewrite Bool.andb_false_iff, Bool.negb_false_iff, Nat.leb_gt, slash_in. reflexivity.
Qed.
Theorem C101_complete : forall n d limit prefix mats nets dl cl diel old, Forall two_materials dl -> FG_Model.combine_diel (diel_data (lit n d) dl) = Some diel ->
  (snd (dump_stl limit prefix mats nets diel (cond_data (lit n d) cl) old) = false <->
   (exists m, In m mats /\ has_material m dl cl /\ bad_name limit (stl_name prefix "diel" m)) \/
   (exists net, In net nets /\ has_net net cl /\ bad_name limit (stl_name prefix "cond" net))).
Proof.
  intros n d limit prefix mats nets dl cl diel old TM C. unfold dump_stl. rewrite each_stops. split.
  - intros (name & ts & I & N & O). apply bad_open in O. apply in_app_or in I. destruct I as [I|I]; apply in_map_iff in I; destruct I as (x & E & I); injection E as <- <-.
    + left. exists x. split; [exact I|]. split; [now apply (mat_some (lit n d) dl cl diel x TM C)|exact O].
    + right. exists x. split; [exact I|]. split; [now apply (net_some (lit n d) cl x)|exact O].
  - intros [(x & I & H & O)|(x & I & H & O)]; apply bad_open in O; eexists; eexists; (split; [apply in_or_app|split; [|exact O]]).
    + left. apply in_map_iff. exists x. split; [reflexivity|exact I].
    + now apply (mat_some (lit n d) dl cl diel x TM C).
    + right. apply in_map_iff. exists x. split; [reflexivity|exact I].
    + now apply (net_some (lit n d) cl x).
Qed.

(** ** A layout: a conductor with a lower side, an upper side and a wall, in oxide; below it nitride *)
Definition corner_tri : grid_tri := ((0, 0), (0, 1000), (1000, 0))%Z.
Definition right_edge : edge := Edge (2000, 3000)%Z (2000, 500)%Z.
Definition net_surfaces (net : string) : list cond_surface :=
  [HCondIn net (Some "ox") (lit 1 2) [corner_tri]; HCondOut net (Some "ox") (lit 3 4) [corner_tri]; VCond net (Some "ox") right_edge [corner_tri]].
Definition ox_surfaces : list diel_surface := [HDiel (Some "nit") (Some "ox") (lit 1 4) [corner_tri]; VDiel None (Some "ox") right_edge [corner_tri]].
Lemma ex_grid : grid_ok 1 1000.
Proof.
  destruct TG_Props.unit_nm_value as [F V]. split; [lia|]. split; [unfold short; lia|]. split.
  - change (lit 1 1000) with TG_Props.unit_nm. split; [exact F|]. rewrite V. lra.
  - intros k K. unfold near_origin in K. exists k, (-3)%Z. split; [lia|]. change (powerRZ 10 (-3)) with (/ 10 ^ 3). lra.
Qed.
Lemma ex_tri : tri_ok corner_tri.
Proof. unfold tri_ok, clockwise, tri_near, p_near, near_origin. cbn. lia. Qed.
Lemma ex_height n d : short n d -> (Z.abs n <= d)%Z -> height_ok (lit n d).
Proof.
  intros S L. destruct (lit_ok n d S) as [F V]. split; [exact F|]. assert (E := lit_err n d S). destruct S as (A & B & C).
  assert (B1 : Rabs (IZR n / IZR d) <= 1).
  { assert (D : 0 < IZR d) by (apply IZR_lt; lia). unfold Rdiv. rewrite Rabs_mult, (Rabs_pos_eq (/ IZR d)) by (left; now apply Rinv_0_lt_compat).
    rewrite abs_int. apply Rmult_le_reg_r with (IZR d); [exact D|]. rewrite Rmult_assoc, Rinv_l by lra. rewrite Rmult_1_l, Rmult_1_r. apply IZR_le. lia. }
  replace (val (lit n d)) with ((val (lit n d) - IZR n / IZR d) + IZR n / IZR d) by ring. eapply Rle_trans; [apply Rabs_triang|].
  unfold u, tiny in E. lra.
Qed.
Lemma ex_cond net : Forall cond_ok (net_surfaces net).
Proof.
  assert (T := ex_tri). assert (E : edge_ok right_edge) by (unfold edge_ok, axis_parallel, p_near, near_origin, dx, dy; cbn; lia).
  repeat (constructor; [split; [|constructor; [exact T|constructor]]|]); [apply ex_height; unfold short; lia|apply ex_height; unfold short; lia|exact E|constructor].
Qed.
Lemma ex_diel : Forall diel_ok ox_surfaces /\ Forall two_materials ox_surfaces.
Proof.
  assert (T := ex_tri). assert (E : edge_ok right_edge) by (unfold edge_ok, axis_parallel, p_near, near_origin, dx, dy; cbn; lia). split.
  - constructor; [split; [apply ex_height; unfold short; lia|constructor; [exact T|constructor]]|]. constructor; [split; [exact E|constructor; [exact T|constructor]]|constructor].
  - constructor; [discriminate|]. constructor; [discriminate|constructor].
Qed.
(** The hypotheses of C101_conductor and C101_dielectric hold for it. *)
Example ex_runs : exists diel new, FG_Model.combine_diel (diel_data (lit 1 1000) ox_surfaces) = Some diel /\
  dump_stl 255 "" ["ox"; "nit"] ["A"] diel (cond_data (lit 1 1000) (net_surfaces "A")) [] = (new, true) /\
  NoDup ["ox"; "nit"] /\ NoDup ["A"] /\ has_net "A" (net_surfaces "A") /\ has_material "ox" ox_surfaces (net_surfaces "A") /\ map fst new = ["diel_ox.stl"; "diel_nit.stl"; "cond_A.stl"].
Proof.
  destruct (FG_Proofs.combine_ok (diel_data (lit 1 1000) ox_surfaces) (TG_Props.diel_wf _ _)) as (diel & C & _). exists diel.
  destruct (dump_stl 255 "" ["ox"; "nit"] ["A"] diel (cond_data (lit 1 1000) (net_surfaces "A")) []) as [new b] eqn:E. exists new. split; [exact C|].
  assert (HN : has_net "A" (net_surfaces "A")) by (exists (HCondIn "A" (Some "ox") (lit 1 2) [corner_tri]), corner_tri; repeat split; now left).
  assert (HM : forall m, In m ["ox"; "nit"] -> has_material m ox_surfaces (net_surfaces "A")).
  { intros m [<- |[<- |[]]]; left; exists (HDiel (Some "nit") (Some "ox") (lit 1 4) [corner_tri]), corner_tri; repeat split; now left. }
  unfold dump_stl in E. cbn [map app] in E. unfold write_each, write_as_stl in E.
  destruct (FG_Model.collect_diel diel (cond_data (lit 1 1000) (net_surfaces "A")) "ox") as [|o os] eqn:E1;
    [exfalso; apply (proj2 (mat_some (lit 1 1000) ox_surfaces (net_surfaces "A") diel "ox" (proj2 ex_diel) C) (HM "ox" ltac:(cbn; tauto))); exact E1|].
  destruct (FG_Model.collect_diel diel (cond_data (lit 1 1000) (net_surfaces "A")) "nit") as [|o' os'] eqn:E2;
    [exfalso; apply (proj2 (mat_some (lit 1 1000) ox_surfaces (net_surfaces "A") diel "nit" (proj2 ex_diel) C) (HM "nit" ltac:(cbn; tauto))); exact E2|].
  destruct (FG_Model.collect_cond (cond_data (lit 1 1000) (net_surfaces "A")) "A") as [|c cs] eqn:E3;
    [exfalso; apply (proj2 (net_some (lit 1 1000) (net_surfaces "A") "A") HN); exact E3|].
  replace (can_open 255 _) with true in E by reflexivity. replace (can_open 255 _) with true in E by reflexivity. replace (can_open 255 _) with true in E by reflexivity.
  injection E as <- <-. split; [reflexivity|]. split; [repeat constructor; cbn; intuition discriminate|]. split; [repeat constructor; cbn; tauto|].
  split; [exact HN|]. split; [apply HM; now left|reflexivity].
Qed.
(** the text of a file with the lower side of the conductor *)
Example ex_text : stl_text (map reversed (cond_tris (lit 1 1000) (HCondIn "A" (Some "ox") (lit 1 2) [corner_tri]))) =
  ("solid stl" ++ nl ++ "  facet normal 0 0 0" ++ nl ++ "    outer loop" ++ nl ++ "   vertex 0 0 0.5" ++ nl ++ "   vertex 0 1 0.5" ++ nl ++ "   vertex 1 0 0.5" ++ nl ++
   "  endloop" ++ nl ++ " endfacet" ++ nl ++ "endsolid stl" ++ nl)%string.
Proof. vm_compute. reflexivity. Qed.
(** Not every name of a net can be used: FasterCap's input shortens the name so that its file can be written, the STL file does not, and the run stops. *)
Fixpoint repeated (k : nat) (s : string) : string := match k with O => "" | S k => (s ++ repeated k s)%string end.
Theorem C101_long_name_refuted : exists n d mats nets dl cl diel net, grid_ok n d /\ Forall cond_ok cl /\ Forall diel_ok dl /\ Forall two_materials dl /\
  FG_Model.combine_diel (diel_data (lit n d) dl) = Some diel /\ In net nets /\ has_net net cl /\
  (forall hash, String.length (hash net) = 22%nat -> (String.length (FG_Model.cond_name "FasterCap_Input_" (Some 255%nat) hash 3 "ox" net) <= 255)%nat) /\
  forall old, snd (dump_stl 255 "" mats nets diel (cond_data (lit n d) cl) old) = false.
Proof.
  destruct (FG_Proofs.combine_ok (diel_data (lit 1 1000) ox_surfaces) (TG_Props.diel_wf _ _)) as (diel & C & _). set (net := repeated 250 "n").
  assert (HN : has_net net (net_surfaces net)) by (exists (HCondIn net (Some "ox") (lit 1 2) [corner_tri]), corner_tri; repeat split; now left).
  exists 1%Z, 1000%Z, ["ox"; "nit"], [net], ox_surfaces, (net_surfaces net), diel, net. split; [exact ex_grid|]. split; [apply ex_cond|]. split; [apply ex_diel|]. split; [apply ex_diel|].
  split; [exact C|]. split; [now left|]. split; [exact HN|]. split.
  - intros hash H. apply FG_Props.C35_fits. rewrite H. apply Nat.leb_le. vm_compute. reflexivity.
  - intros old. apply (C101_complete 1 1000 255 "" ["ox"; "nit"] [net] ox_surfaces (net_surfaces net) diel old (proj2 ex_diel) C). right. exists net. split; [now left|]. split; [exact HN|].
    left. apply Nat.ltb_lt. vm_compute. reflexivity.
Qed.
(** The directory does not only show the present layout: the file of a net that is gone stays as it was. *)
Theorem C101_stale_refuted : exists mats nets1 nets2 diel cond1 cond2 net text,
  ~ In net nets2 /\ FG_Model.collect_cond cond2 net = [] /\
  let first := dump_stl 255 "" mats nets1 diel cond1 [] in let second := dump_stl 255 "" mats nets2 diel cond2 (fst first) in
  snd first = true /\ snd second = true /\ dget (fst second) (stl_name "" "cond" net) = Some text /\ exists fs, stl text fs /\ fs <> [].
Proof.
  destruct ex_runs as (diel & new & C & R & M & N & HN & _ & _).
  destruct (C101_conductor 1 1000 255 "" ["ox"; "nit"] ["A"] (net_surfaces "A") diel [] new ex_grid M N (ex_cond "A") R "A" ltac:(now left) HN) as (text & fs & D & S & fss & F & P).
  exists ["ox"; "nit"], ["A"], ["B"], diel, (cond_data (lit 1 1000) (net_surfaces "A")), (cond_data (lit 1 1000) (net_surfaces "B")), "A", text.
  split; [cbn; intuition discriminate|]. split; [reflexivity|]. cbv zeta. rewrite R. cbn [fst snd]. split; [reflexivity|]. split.
  - destruct (snd (dump_stl 255 "" ["ox"; "nit"] ["B"] diel (cond_data (lit 1 1000) (net_surfaces "B")) new)) eqn:E; [reflexivity|]. exfalso.
    apply (C101_complete 1 1000 255 "" ["ox"; "nit"] ["B"] ox_surfaces (net_surfaces "B") diel new (proj2 ex_diel) C) in E.
    assert (X : forall x, bad_name 255 x -> can_open 255 x = false) by (intros x; apply bad_open).
    destruct E as [(m & [<- |[<- |[]]] & _ & B)|(m & [<- |[]] & _ & B)]; apply X in B; discriminate B.
  - rewrite (C101_only 1 1000 255 "" ["ox"; "nit"] ["B"] ox_surfaces (net_surfaces "B") diel new _ (proj2 ex_diel) C); [split; [exact D|]| |].
    + exists fs. split; [exact S|]. intros ->. apply Permutation_nil in P. cbn in F. inversion F as [|s1 f1 ? ? H1 F1]; subst. cbn in P. apply app_eq_nil in P. destruct P as [-> _].
      destruct H1 as (z & _ & H1). inversion H1.
    + intros m [<- |[<- |[]]]; discriminate.
    + intros m [<- |[]]; discriminate.
Qed.

Print Assumptions C101_unique.
Print Assumptions C101_conductor.
Print Assumptions C101_dielectric.
Print Assumptions C101_only.
Print Assumptions C101_complete.
Print Assumptions C101_long_name_refuted.
Print Assumptions C101_stale_refuted.
