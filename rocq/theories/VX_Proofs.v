(** What is in the files at a point, for C105. *)
From Coq Require Import ZArith Reals String List Permutation Lra Lia.
From Flocq Require Import Core.Core IEEE754.BinarySingleNaN.
From Verif Require Import PyBase PyLib FP_Model FP_Spec TG_Model TG_Spec ST_Spec GF_Spec VX_Model VX_Spec VX_Geo VX_Walls.
From Verif Require SW_Model SW_Spec SW_Run SW_Sweep VX_Sweep TG_Proofs NF_Props ST_Proofs.
Import ListNotations.
Local Close Scope Qc_scope.
Local Open Scope list_scope.
Local Open Scope R_scope.

(** ** Lists *)
Lemma flat_nil {A B} (f : A -> list B) l : (forall x, In x l -> f x = []) -> flat_map f l = [].
Proof. induction l as [|x l IH]; cbn; intros H; [reflexivity|]. rewrite H by (now left). apply IH. intros. apply H. now right. Qed.
Lemma by_name {A B} (nm : A -> string) (lab : A -> list B) (pl : list A) (names : list string) : NoDup names ->
  (forall x, In x pl -> lab x <> [] -> In (nm x) names) ->
  Permutation (flat_map (fun c => flat_map lab (filter (fun x => String.eqb (nm x) c) pl)) names) (flat_map lab pl).
Proof.
  intros N. induction pl as [|x pl IH]; intros I; cbn [flat_map].
  - rewrite flat_nil; [constructor|]. reflexivity.
  - assert (IH' := IH (fun y Y => I y (or_intror Y))). clear IH.
    transitivity (flat_map (fun c => if String.eqb (nm x) c then lab x else []) names ++ flat_map (fun c => flat_map lab (filter (fun x => String.eqb (nm x) c) pl)) names).
    + rewrite <- SW_Sweep.flat_map_pair. match goal with |- Permutation ?a ?b => replace a with b; [reflexivity|] end. apply flat_map_ext. intros c. cbn [filter]. destruct (String.eqb (nm x) c); reflexivity.
    + apply Permutation_app; [|exact IH']. destruct (lab x) as [|w ws] eqn:E.
      * rewrite flat_nil; [constructor|]. intros c _. destruct (String.eqb (nm x) c); reflexivity.
      * assert (J : In (nm x) names) by (apply I; [now left|congruence]). clear I IH'. induction names as [|c names IH]; [destruct J|]. inversion N as [|? ? N1 N2]; subst. cbn [flat_map].
        destruct (String.eqb_spec (nm x) c) as [<-|Ne].
        -- rewrite (flat_nil _ names); [rewrite app_nil_r; reflexivity|]. intros c' I'. destruct (String.eqb_spec (nm x) c') as [<-|]; [contradiction|reflexivity].
        -- destruct J as [J|J]; [congruence|]. apply IH; assumption.
Qed.
Lemma filter_map_fst {A B} (p : A -> bool) (l : list (A * B)) : filter p (map fst l) = map fst (filter (fun x => p (fst x)) l).
Proof. induction l as [|x l IH]; cbn; [reflexivity|]. destruct (p (fst x)); cbn; now rewrite IH. Qed.

(** ** Panels of many surfaces *)
Definition finds {B} (P : B -> Prop) (Rr : wanted -> B -> Prop) (ps : list B) (ws : list wanted) : Prop :=
  exists found found', picks P ps found /\ Permutation found found' /\ Forall2 Rr ws found'.
Lemma finds_app {B} (P : B -> Prop) Rr ps ws ps' ws' : finds P Rr ps ws -> finds P Rr ps' ws' -> finds P Rr (ps ++ ps') (ws ++ ws').
Proof. intros (f & g & A & Q & F) (f' & g' & A' & Q' & F'). exists (f ++ f'), (g ++ g'). split; [now apply picks_app|]. split; [now apply Permutation_app|now apply Forall2_app]. Qed.
Lemma finds_flat {A B} (P : B -> Prop) Rr (f : A -> list B) (g : A -> list wanted) l : (forall x, In x l -> finds P Rr (f x) (g x)) -> finds P Rr (flat_map f l) (flat_map g l).
Proof.
  induction l as [|x l IH]; cbn; intros H.
  - exists [], []. repeat split; constructor.
  - apply finds_app; [apply H; now left|apply IH; intros; apply H; now right].
Qed.
Lemma finds_perm {B} (P : B -> Prop) Rr ps ws ws' : Permutation ws ws' -> finds P Rr ps ws -> finds P Rr ps ws'.
Proof. intros Q (f & g & A & B' & F). destruct (permuted _ _ _ _ Q F) as (g' & Q' & F'). exists f, g'. split; [exact A|]. split; [etransitivity; eassumption|exact F']. Qed.
Lemma finds_map {A B} (f : A -> B) (P : B -> Prop) Rr ps ws : finds (fun x => P (f x)) (fun w x => Rr w (f x)) ps ws -> finds P Rr (map f ps) ws.
Proof.
  intros (p & g & A' & Q & F). exists (map f p), (map f g). split; [now apply picks_map|]. split; [now apply Permutation_map|].
  clear - F. induction F; cbn; constructor; assumption.
Qed.
Lemma made_found {S B} (shown : S -> list B -> Prop) (P ok : B -> Prop) (Rr : wanted -> B -> Prop) (pl : list (S * list wanted)) ps :
  made_from shown (map fst pl) ps -> (forall x, In x ps -> ok x) ->
  (forall s ws qs, In (s, ws) pl -> shown s qs -> (forall x, In x qs -> ok x) -> exists found, picks P qs found /\ Forall2 Rr ws found) ->
  finds P Rr ps (flat_map snd pl).
Proof.
  intros (pss & F & Q) O H.
  assert (O' : forall x, In x (concat pss) -> ok x) by (intros x I; apply O, (Permutation_in _ (Permutation_sym Q)), I).
  assert (E : exists found, picks P (concat pss) found /\ Forall2 Rr (flat_map snd pl) found).
  { clear Q O. revert pss F O'. induction pl as [|[s ws] pl IH]; cbn; intros pss F O'; inversion F as [|? qs ? qss A F']; subst; cbn in *.
    - exists []. split; constructor.
    - destruct (H s ws qs (or_introl eq_refl) A) as (f & X & Y); [intros x I; apply O', in_or_app; now left|].
      destruct (IH (fun s ws qs I => H s ws qs (or_intror I)) qss F') as (f' & X' & Y'); [intros x I; apply O', in_or_app; now right|].
      exists (f ++ f'). split; [now apply picks_app|now apply Forall2_app]. }
  destruct E as (f & X & Y). destruct (picks_perm P _ _ (Permutation_sym Q) f X) as (f' & X' & Z). exists f', f. split; [exact X'|]. split; [now apply Permutation_sym|exact Y].
Qed.

(** ** The whole layout at a point *)
Section Point.
Variables (u : R) (k_void : Qc) (mats : dict string Qc) (q : corner).
Definition wants_c (s : cond_surface) (ws : list wanted) : Prop :=
  (forall qs, cond_panels u k_void mats s qs -> (forall x, In x qs -> ~ on_border q (fst (fst x))) ->
    exists found, picks (fun x => inside q (fst (fst x))) qs found /\ Forall2 (fun w x => shows k_void mats w (OfNet (net_of s) x)) ws found) /\
  (ws <> [] -> cond_triangles s <> []).
Definition wants_d (s : diel_surface) (ws : list wanted) : Prop :=
  forall qs, diel_panels u k_void mats s qs -> (forall x, In x qs -> ~ on_border q (fst (fst (fst x)))) ->
    exists found, picks (fun x : interface => inside q (fst (fst (fst x)))) qs found /\ Forall2 (fun w x => shows k_void mats w (Between x)) ws found.
Lemma collect dl cl cs ds (plc : list (cond_surface * list wanted)) (pld : list (diel_surface * list wanted)) :
  whole_layout u k_void mats dl cl cs ds -> off_borders q cs ds -> map fst plc = cl -> map fst pld = dl ->
  (forall s ws, In (s, ws) plc -> wants_c s ws) -> (forall s ws, In (s, ws) pld -> wants_d s ws) ->
  seen_at k_void mats q cs ds (flat_map snd plc ++ flat_map snd pld).
Proof.
  intros (N & _ & HN & MC & MD) O EC ED WC WD. change (seen_at k_void mats q cs ds) with (finds (fun x => inside q (facet_of x)) (shows k_void mats) (views cs ds)).
  unfold views. apply finds_app.
  - apply finds_perm with (ws := flat_map (fun c => flat_map snd (filter (fun x => String.eqb (net_of (fst x)) c) plc)) (map name cs)).
    + apply (by_name (fun x => net_of (fst x)) snd); [exact N|]. intros [s ws] I Ne. apply HN. cbn [fst snd] in *. destruct (WC s ws I) as [_ T]. specialize (T Ne).
      destruct (cond_triangles s) as [|g ts] eqn:E; [congruence|]. exists s, g. split; [rewrite <- EC; apply (in_map fst _ _ I)|]. split; [reflexivity|]. rewrite E. now left.
    + assert (E : forall (f : string -> list wanted) l, flat_map f (map name l) = flat_map (fun c => f (name c)) l) by (intros f l; induction l; cbn; congruence). rewrite E. clear E.
      apply finds_flat. intros c I. apply finds_map. specialize (MC c I). rewrite <- EC, filter_map_fst in MC. cbn [facet_of].
      apply (made_found _ _ (fun x => ~ on_border q (fst (fst x))) _ _ _ MC).
      * intros x J. apply (O (OfNet (name c) x)). unfold views. apply in_or_app. left. apply in_flat_map. exists c. split; [exact I|apply in_map, J].
      * intros s ws qs J P B. apply filter_In in J. destruct J as [J K]. unfold of_net in K. cbn [fst] in K. apply String.eqb_eq in K. rewrite <- K. exact (proj1 (WC s ws J) qs P B).
  - apply finds_map. rewrite <- ED in MD. cbn [facet_of]. apply (made_found _ _ (fun x => ~ on_border q (fst (fst (fst x)))) _ _ _ MD).
    + intros x J. apply (O (Between x)). unfold views. apply in_or_app. right. apply in_map, J.
    + intros s ws qs J P B. exact (WD s ws J qs P B).
Qed.

(** ** The panels of one surface *)
Lemma placed_found A place v ts r (ps : list panel) x y s t :
  (forall l m n x y x' y' x'' y'', l + m + n = 1 -> A (l * x + m * x' + n * x'') (l * y + m * y' + n * y'') = weighted l m n (A x y, A x' y', A x'' y'')) ->
  (forall x y x' y', A x y = A x' y' -> x = x' /\ y = y') ->
  (forall g, place g = A (IZR (fst g)) (IZR (snd g))) ->
  Forall2 (panel_at place v) ts ps -> covers ts r -> 0 < s < 1 -> 0 < t < 1 -> q = A (IZR x + s) (IZR y + t) -> (forall p, In p ps -> ~ on_border q (fst p)) ->
  exists found, picks (fun p => inside q (fst p)) ps found /\ List.length found = (if in_dec eq_dec (x, y) r then 1%nat else 0%nat) /\ Forall (looks v) found.
Proof.
  intros Af Inj Pl F C S T Eq O.
  destruct (C x y s t S T) as (f & X & L).
  { intros g I Bd. clear C. assert (E : exists p, In p ps /\ panel_at place v g p).
    { clear - F I. induction F as [|a b l m X F IH]; [destruct I|]. destruct I as [<-|I]; [exists b; split; [now left|exact X]|]. destruct (IH I) as (p & J & Y). exists p. split; [now right|exact Y]. }
    destruct E as (p & J & [Y _]). apply (O p J). apply (placed_border A Af Inj place Pl _ _ _ _ _ Y) in Bd. rewrite Eq. exact Bd. }
  assert (Rel : forall g p, panel_at place v g p -> (inside (IZR x + s, IZR y + t, 0) (flat g) <-> inside q (fst p))).
  { intros g p [Y _]. rewrite Eq. apply (placed_inside A Af Inj place Pl _ _ _ _ _ Y). }
  destruct (picks_related _ _ _ _ _ _ F Rel X) as (f' & X' & F').
  exists f'. split; [exact X'|]. split; [rewrite <- L; clear - F'; induction F'; cbn; congruence|].
  clear - F'. induction F' as [|g p l m [Y Z] F IH]; constructor; [|exact IH]. split; [|exact Z]. destruct g as [[a b] c], p as [[[a' b'] c'] r]. apply Y.
Qed.
Lemma none_found place v ts (ps : list panel) : Forall2 (panel_at place v) ts ps -> (forall g f, facet_at place v g f -> ~ inside q f) ->
  picks (fun p => inside q (fst p)) ps [].
Proof.
  intros F N. apply picks_none. intros p I. assert (E : exists g, panel_at place v g p).
  { induction F as [|a b l m X F IH]; [destruct I|]. destruct I as [<-|I]; [exists a; exact X|exact (IH I)]. }
  destruct E as (g & [Y _]). exact (N g _ Y).
Qed.
Lemma covers_some ts r c : covers ts r -> In c r -> ts <> [].
Proof.
  intros C I ->. destruct c as [x y]. destruct (C x y (/ 2) (/ 2)) as (f & X & L); [lra|lra|intros g []|]. inversion X; subst. cbn in L. destruct (in_dec eq_dec (x, y) r); [discriminate|contradiction].
Qed.
(** what the panels of a surface show, from how many are at the point *)
Lemma cond_show s v (qs : list (panel * R)) (b : bool) found : Forall (fun x => of_material k_void mats (snd (net_and_outside s)) (snd x)) qs ->
  picks (fun p : panel => inside q (fst p)) (map fst qs) found -> List.length found = (if b then 1%nat else 0%nat) -> Forall (looks v) found ->
  exists found, picks (fun x => inside q (fst (fst x))) qs found /\
    Forall2 (fun w x => shows k_void mats w (OfNet (net_of s) x)) (if b then [Outer (net_of s) (snd (net_and_outside s)) v] else []) found.
Proof.
  intros M X L F. destruct (picks_map_inv fst _ _ _ X) as (m & -> & Y). exists m. split; [exact Y|]. rewrite map_length in L. destruct b.
  - destruct m as [|[p k] [|? ?]]; try discriminate. constructor; [|constructor]. rewrite Forall_forall in M. cbn. split; [reflexivity|]. split; [now inversion F|].
    apply (M (p, k)). apply (picks_In _ _ _ _ Y). now left.
  - destruct m; [constructor|discriminate].
Qed.
Lemma opposite_twice v : opposite (opposite v) = v.
Proof. destruct v as [[x y] z]. cbn. f_equal; [f_equal|]; lra. Qed.
Lemma diel_show s m m' v (qs : list interface) (b : bool) found : between s m m' v ->
  Forall (fun x => of_material k_void mats m (snd (fst x)) /\ of_material k_void mats m' (snd x)) qs ->
  picks (fun p : panel => inside q (fst p)) (map (fun x : interface => fst (fst x)) qs) found -> List.length found = (if b then 1%nat else 0%nat) -> Forall (looks v) found ->
  exists found, picks (fun x : interface => inside q (fst (fst (fst x)))) qs found /\
    Forall2 (fun w x => shows k_void mats w (Between x)) (if b then [Interface (fst (materials s)) (snd (materials s)) (diel_side s)] else []) found.
Proof.
  intros Bt M X L F. destruct (picks_map_inv (fun x : interface => fst (fst x)) _ _ _ X) as (f & -> & Y). exists f. split; [exact Y|]. rewrite map_length in L. destruct b.
  - destruct f as [|[[p k] k'] [|? ?]]; try discriminate. constructor; [|constructor]. rewrite Forall_forall in M.
    destruct (M (p, k, k')) as [M1 M2]; [apply (picks_In _ _ _ _ Y); now left|]. cbn [fst snd] in M1, M2. inversion F as [|? ? Lk _]; subst. cbn [fst] in Lk. cbn [shows].
    destruct Bt as [[E ->]|[E ->]]; rewrite <- E; cbn [fst snd].
    + left. auto.
    + right. auto.
  - destruct f; [constructor|discriminate].
Qed.
End Point.
