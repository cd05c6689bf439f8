(** Lemmas for C115: the order of the materials, the links of a chain among the calls. *)
From Coq Require Import String QArith.Qround.
From Verif Require Import PyBase PyLib SW_Model SW_Spec TI_Model TI_Spec TI_Proofs DW_Spec.
Local Open Scope list_scope.

(** ** the order of the materials *)
(** [a] comes before every [b] *)
Definition ord {A} (l : list A) (a b : A) : Prop := a <> b /\ exists x y, l = x ++ a :: y /\ ~ In b x.
Lemma firsts_ord {A} `{EqDec A} (a b : A) (l : list A) : forall seen, ord l a b -> ~ In a seen -> ord (firsts seen l) a b.
Proof.
  intros seen (Nab & x & y & -> & Nb). revert seen. induction x as [|w x IH]; intros seen Ns; cbn [app firsts].
  - destruct (existsb (eqb a) seen) eqn:E.
    + exfalso. apply existsb_exists in E. destruct E as (v & J & E). apply eqb_eq in E. subst v. exact (Ns J).
    + split; [exact Nab|]. exists [], (firsts (a :: seen) y). split; [reflexivity | intros []].
  - assert (Nb' : ~ In b x) by (intros J; apply Nb; right; exact J). destruct (existsb (eqb w) seen); [exact (IH Nb' seen Ns)|].
    destruct (eq_dec w a) as [->|Nw].
    + split; [exact Nab|]. exists [], (firsts (a :: seen) (x ++ a :: y)). split; [reflexivity | intros []].
    + destruct (IH Nb' (w :: seen)) as (_ & x' & y' & -> & N'); [intros [J|J]; [exact (Nw J) | exact (Ns J)]|].
      split; [exact Nab|]. exists (w :: x'), y'. split; [reflexivity|]. intros [J|J]; [apply Nb; left; exact J | exact (N' J)].
Qed.
Lemma dkeys_dset {V} (d : dict string V) k v : exists e, dkeys (dset d k v) = dkeys d ++ e /\ (forall w, In w e -> w = k) /\ In k (dkeys (dset d k v)).
Proof.
  induction d as [|[k' v'] d IH]; [exists [k]; cbn; intuition|]. cbn [dset]. destruct (eq_dec k k') as [->|Nk].
  - exists []. cbn. rewrite app_nil_r. intuition.
  - destruct IH as (e & E & W & J). exists e. cbn. fold (dkeys (dset d k v)). rewrite E in *. intuition.
Qed.
Lemma by_key_ord {V} (key : V -> string) (a b : string) (l : list V) : ord (map key l) a b -> ord (dkeys (by_key key l)) a b.
Proof.
  intros (Nab & x & y & E & Nb). split; [exact Nab|]. unfold by_key.
  assert (G : forall l d x y, map key l = x ++ a :: y -> ~ In b x -> ~ In b (dkeys d) ->
    exists u v, dkeys (fold_left (fun d x => dset d (key x) x) l d) = u ++ a :: v /\ ~ In b u).
  { clear -Nab. intros l. induction l as [|w l IH]; intros d x y E Nb Nd; [destruct x; discriminate|]. cbn [fold_left]. cbn [map] in E.
    destruct (dkeys_dset d (key w) w) as (e & Ee & We & Je).
    assert (Nd' : key w <> b -> ~ In b (dkeys (dset d (key w) w))).
    { intros N J. rewrite Ee in J. apply in_app_or in J. destruct J as [J|J]; [exact (Nd J)|]. apply N. symmetry. exact (We _ J). }
    destruct x as [|x1 x]; cbn in E; injection E as E1 E2.
    - assert (K : forall l d, exists f, dkeys (fold_left (fun d x => dset d (key x) x) l d) = dkeys d ++ f).
      { clear. intros l. induction l as [|w l IH]; intros d; [exists []; cbn; rewrite app_nil_r; reflexivity|]. cbn [fold_left].
        destruct (dkeys_dset d (key w) w) as (e & Ee & _). destruct (IH (dset d (key w) w)) as (f & ->). exists (e ++ f). rewrite Ee, app_assoc. reflexivity. }
      destruct (K l (dset d (key w) w)) as (f & ->). rewrite <- E1 in *. specialize (Nd' Nab). apply in_split in Je. destruct Je as (u & v & Eu).
      exists u, (v ++ f). rewrite Eu in *. split; [rewrite <- app_assoc; reflexivity|]. intros J. apply Nd', in_or_app. left. exact J.
    - apply (IH _ x y E2); [intros J; apply Nb; right; exact J|]. apply Nd'. intros X. apply Nb. left. congruence. }
  apply (G l [] x y E Nb). intros [].
Qed.
Lemma find_ord {A} (f : A -> bool) (l : list A) (a b : A) : ord l a b -> f a = true -> find f l <> Some b.
Proof.
  intros (Nab & x & y & -> & Nb) F. induction x as [|w x IH]; cbn [app find].
  - rewrite F. congruence.
  - destruct (f w); [|apply IH; intros J; apply Nb; right; exact J]. intros E. injection E as ->. apply Nb. left. reflexivity.
Qed.
Lemma ord_Mat l a b : ord l a b -> ord (map Mat l) (Mat a) (Mat b).
Proof.
  intros (N & x & y & -> & Nb). split; [congruence|]. exists (map Mat x), (map Mat y). rewrite map_app. split; [reflexivity|].
  intros J. apply in_map_iff in J. destruct J as (w & E & J). injection E as ->. exact (Nb J).
Qed.

Section Order.
Variables (stack : list slayer) (included : string -> bool).
Notation kept := (filtered_dielectrics stack included).
Lemma used_kept l : used_dielectric included l <-> is_dielectric l && included (s_name l) = true.
Proof. unfold used_dielectric, is_dielectric. destruct (s_type l); cbn; intuition discriminate. Qed.
Lemma names_ord a b : listed_before stack included a b -> ord (dielectric_names stack included) a b.
Proof.
  intros (Nab & x & l & y & E & <- & U & Nx). unfold dielectric_names. apply by_key_ord. split; [exact Nab|].
  unfold filtered_dielectrics. rewrite E, filter_app. cbn [filter]. rewrite (proj1 (used_kept l) U), map_app. cbn [map].
  eexists _, _. split; [reflexivity|]. intros J. apply in_map_iff in J. destruct J as (w & Ew & J). apply filter_In in J. destruct J as [J K].
  exact (Nx w J (proj2 (used_kept w) K) Ew).
Qed.
Definition materials_only {face} (cs : list (@call face)) : list string := flat_map (fun c => match c with AddMaterial m => [m] | _ => [] end) cs.
Lemma no_materials {face} (cs : list (@call face)) : (forall m, ~ In (AddMaterial m) cs) -> materials_only cs = [].
Proof.
  induction cs as [|c cs IH]; intros N; [reflexivity|]. unfold materials_only in *. cbn [flat_map]. rewrite IH by (intros m J; apply (N m); right; exact J).
  destruct c as [m| |]; [exfalso; apply (N m); left; reflexivity | reflexivity | reflexivity].
Qed.
Lemma some_materials {face} (ms : list string) : materials_only (map (@AddMaterial face) ms) = ms.
Proof. induction ms as [|m ms IH]; [reflexivity|]. unfold materials_only in *. cbn. f_equal. exact IH. Qed.
End Order.

(** ** the links of a chain *)
Lemma chain_unique stack included n ls : uchain stack included n ls -> forall ls', chain stack included n ls' -> ls' = ls.
Proof.
  intros U. induction U as [n F | n l ls F U IH]; intros ls' C; inversion C as [? N | ? l' ls1 R C']; subst.
  - reflexivity.
  - exfalso. exact (lookup_none _ _ _ F _ R).
  - exfalso. apply lookup_found in F. exact (N _ (proj1 F)).
  - apply lookup_found in F. rewrite (proj2 F _ R) in *. f_equal. apply IH, C'.
Qed.
Lemma all_of_metal {face} {EF : EqDec face} stack included dbu ls bbox sized et fuel m : forall layers ds,
  all_dielectrics stack included dbu ls bbox sized et fuel layers = BCalls ds -> In m layers ->
  exists cs, metal_dielectrics stack included dbu ls bbox sized et fuel m = BCalls cs /\ incl cs ds.
Proof.
  induction layers as [|l layers IH]; intros ds E J; [destruct J|]. cbn [all_dielectrics] in E.
  destruct (metal_dielectrics _ _ _ _ _ _ _ _ l) as [a| |] eqn:Ea; try discriminate.
  destruct (all_dielectrics _ _ _ _ _ _ _ _ layers) as [b| |] eqn:Eb; try discriminate. injection E as <-.
  destruct J as [->|J].
  - exists a. split; [exact Ea|]. intros x X. apply in_or_app. left. exact X.
  - destruct (IH b eq_refl J) as (cs & Ec & I). exists cs. split; [exact Ec|]. intros x X. apply in_or_app. right. exact (I x X).
Qed.
Lemma link_added {face} {EF : EqDec face} stack included dbu layer_shapes bbox sized et fuel m z t c first rest cs ls i name region height :
  s_type m = Metal z t c -> layer_shapes (s_name m) = Some (first :: rest) ->
  metal_dielectrics stack included dbu layer_shapes bbox sized et fuel m = BCalls cs ->
  chain stack included (s_name m) ls -> link_body sized dbu (first :: rest) t ls i name region height ->
  In (@AddDielectric face name region z height) cs.
Proof.
  intros T S E C (l & Nl & -> & -> & ->). unfold metal_dielectrics in E. rewrite T, S in E. cbn [truthy negb] in E.
  destruct (sidewalls _ _ _ _ _ fuel _ _ _ _ _ _ _) as [cs1 r h nm| |] eqn:F; try discriminate.
  apply sidewalls_done in F. destruct F as (ch & Uc & -> & _). rewrite <- (chain_unique _ _ _ _ Uc _ C) in *.
  destruct (simple_calls _ _ _ _ _ _ _) as [cs2|]; [|discriminate]. injection E as <-. apply in_or_app. left. cbn [app]. rewrite walk_spec.
  apply in_flat_map. exists i. split.
  - apply in_seq. split; [lia|]. apply nth_error_Some. congruence.
  - unfold link_calls. rewrite Nl. left. reflexivity.
Qed.
Lemma link_refers stack included n ls : chain stack included n ls -> forall l, In l ls -> exists k, refers stack included k l.
Proof. induction 1 as [|n l ls R C IH]; intros w J; [destruct J|]. destruct J as [<-|J]; [exists n; exact R | exact (IH w J)]. Qed.

(** ** the calls of a build *)
Lemma cond_no_material {face} nm s z h m : ~ In (AddMaterial m) (cond_call (face := face) nm s z h).
Proof. unfold cond_call. destruct s as [[|x q]|]; intros X; cbn in X; intuition discriminate. Qed.
Lemma metal_no_material {face} {EF : EqDec face} stack included dbu ls bbox sized et fuel l cs m :
  metal_dielectrics stack included dbu ls bbox sized et fuel l = BCalls cs -> ~ In (AddMaterial m) cs.
Proof.
  intros E J. unfold metal_dielectrics in E. destruct (s_type l) as [| | | | | | |z t c]; try (injection E as <-; destruct J).
  assert (S : forall sw nm cs2, simple_calls stack included bbox et l sw nm = Some cs2 -> ~ In (AddMaterial m) cs2).
  { clear. intros sw nm cs2 E J. unfold simple_calls in E. destruct (simple_dielectric_above_metal stack included (s_name l)) as [[d|] h]; [|injection E as <-; destruct J].
    assert (Q : forall r : list face, ~ In (@AddMaterial face m) (match nm with
      | Some (nr, nh) => if truthy et nr then [diel (s_name d) r (metal_z l + nh)%Qc (h - nh)%Qc] else [diel (s_name d) r (metal_z l) h]
      | None => [diel (s_name d) r (metal_z l) h] end)).
    { intros r. destruct nm as [[nr nh]|]; [destruct (truthy et nr)|]; intros [X|[]]; discriminate. }
    destruct sw as [[sr sh]|]; [destruct (negb (truthy et sr)); [|destruct (qleb 0 sh); [|discriminate]]|]; injection E as <-.
    - exact (Q _ J).
    - destruct J as [J|J]; [discriminate | exact (Q _ J)].
    - exact (Q _ J). }
  destruct (ls (s_name l)) as [shapes|].
  2: { destruct (simple_calls _ _ _ _ _ _ _) as [cs2|] eqn:G; [|discriminate]. injection E as <-. exact (S _ _ _ G J). }
  destruct (negb (truthy et shapes)).
  { destruct (simple_calls _ _ _ _ _ _ _) as [cs2|] eqn:G; [|discriminate]. injection E as <-. exact (S _ _ _ G J). }
  destruct (sidewalls _ _ _ _ _ fuel _ _ _ _ _ _ _) as [cs1 r h nm| |] eqn:F; try discriminate.
  apply sidewalls_done in F. destruct F as (ch & _ & -> & _).
  destruct (simple_calls _ _ _ _ _ _ _) as [cs2|] eqn:G; [|discriminate]. injection E as <-. apply in_app_or in J. destruct J as [J|J]; [|exact (S _ _ _ G J)].
  cbn [app] in J. rewrite walk_spec in J. apply in_flat_map in J. destruct J as (i & _ & J). unfold link_calls in J.
  destruct (nth_error ch i) as [w|]; [|destruct J]. destruct J as [J|J]; [discriminate|]. destruct (flat_part w); [destruct J as [J|J]; [discriminate|]|]; destruct J.
Qed.
Lemma all_no_material {face} {EF : EqDec face} stack included dbu ls bbox sized et fuel m : forall layers ds,
  all_dielectrics stack included dbu ls bbox sized et fuel layers = BCalls ds -> ~ In (AddMaterial m) ds.
Proof.
  induction layers as [|l layers IH]; intros ds E J; cbn [all_dielectrics] in E; [injection E as <-; destruct J|].
  destruct (metal_dielectrics _ _ _ _ _ _ _ _ l) as [a| |] eqn:Ea; try discriminate.
  destruct (all_dielectrics _ _ _ _ _ _ _ _ layers) as [b| |] eqn:Eb; try discriminate. injection E as <-.
  apply in_app_or in J. destruct J as [J|J]; [exact (metal_no_material _ _ _ _ _ _ _ _ _ _ _ Ea J) | exact (IH _ eq_refl J)].
Qed.
Lemma build_materials {face} {EF : EqDec face} stack included dbu nets ls bbox sized et fuel (cs : list (@call face)) :
  build_calls stack included dbu nets ls bbox sized et fuel = BCalls cs ->
  exists fox k ds, In fox stack /\ s_type fox = FieldOxide k /\ materials_of cs = firsts [] (s_name fox :: dielectric_names stack included) /\
    all_dielectrics stack included dbu ls bbox sized et fuel stack = BCalls ds /\ incl ds cs.
Proof.
  intros E. unfold build_calls in E. destruct (find _ stack) as [fox|] eqn:Ff; [|discriminate]. apply find_some in Ff.
  destruct (find _ stack) as [[sn [sh st| | | | | | |]]|]; try discriminate.
  destruct (find is_metal stack) as [gate|]; [|discriminate]. destruct (all_dielectrics _ _ _ _ _ _ _ _ stack) as [ds| |] eqn:A; try discriminate.
  destruct Ff as [Jf Tf]. destruct (s_type fox) as [| | |k| | | |] eqn:T; try discriminate.
  exists fox, k, ds. split; [exact Jf|]. split; [exact T|]. injection E as <-. split; [|split; [reflexivity|]].
  - unfold materials_of. f_equal. cbn [flat_map app]. f_equal. rewrite flat_map_app.
    change (materials_only (map (@AddMaterial face) (dielectric_names stack included)) ++
      materials_only (flat_map (net_calls stack) nets ++ [AddConductor VSUBS (substrate_region stack dbu nets bbox sized) (0 - sh - st)%Qc st] ++
        [diel (s_name fox) bbox 0%Qc (metal_z gate - 0)%Qc] ++ ds) = dielectric_names stack included).
    rewrite some_materials, no_materials; [apply app_nil_r|]. intros m J. apply in_app_or in J. destruct J as [J|[J|[J|J]]]; [|discriminate|discriminate|].
    + apply in_flat_map in J. destruct J as (n & _ & J). unfold net_calls in J. apply in_app_or in J. destruct J as [J|J]; apply in_flat_map in J; destruct J as (l & _ & J).
      * unfold metal_calls in J. destruct (s_type l) as [| | | | | | |z1 t1 [c|]]; try destruct J; apply in_app_or in J; destruct J as [J|J]; try (apply cond_no_material in J; exact J). destruct J.
      * unfold diffusion_calls in J. destruct (s_type l) as [| |c| | | | |]; try destruct J. apply in_app_or in J. destruct J as [J|J]; apply cond_no_material in J; exact J.
    + exact (all_no_material _ _ _ _ _ _ _ _ _ _ _ A J).
  - intros x X. right. apply in_or_app. right. apply in_or_app. right. right. right. exact X.
Qed.
