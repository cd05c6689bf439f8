From Coq Require Import String ZArith Permutation Lia.
From Verif Require Import PyBase QcLra PyLib ER_Model SF_Model SF_Spec.
Local Open Scope Z_scope.

(** * bounding boxes *)
Lemma fold_min t : forall y, (fold_left (fun m (q : Z * Z) => Z.min m (snd q)) t y = y
    \/ exists x, In (x, fold_left (fun m q => Z.min m (snd q)) t y) t)
  /\ fold_left (fun m q => Z.min m (snd q)) t y <= y
  /\ (forall q, In q t -> fold_left (fun m q => Z.min m (snd q)) t y <= snd q).
Proof.
  induction t as [|[x0 y0] t IH]; intros y; cbn [fold_left snd].
  - split; [now left|]. split; [lia|]. intros q [].
  - destruct (IH (Z.min y y0)) as (H1 & H2 & H3). split; [|split].
    + destruct H1 as [H1|[x H1]]; [|right; exists x; now right].
      destruct (Z.min_spec y y0) as [[_ E]|[_ E]]; [left; congruence|].
      right. exists x0. left. congruence.
    + lia.
    + intros q [<-|Hq]; [cbn; lia|auto].
Qed.
Lemma fold_max t : forall y, (fold_left (fun m (q : Z * Z) => Z.max m (snd q)) t y = y
    \/ exists x, In (x, fold_left (fun m q => Z.max m (snd q)) t y) t)
  /\ y <= fold_left (fun m q => Z.max m (snd q)) t y
  /\ (forall q, In q t -> snd q <= fold_left (fun m q => Z.max m (snd q)) t y).
Proof.
  induction t as [|[x0 y0] t IH]; intros y; cbn [fold_left snd].
  - split; [now left|]. split; [lia|]. intros q [].
  - destruct (IH (Z.max y y0)) as (H1 & H2 & H3). split; [|split].
    + destruct H1 as [H1|[x H1]]; [|right; exists x; now right].
      destruct (Z.max_spec y y0) as [[_ E]|[_ E]]; [|left; congruence].
      right. exists x0. left. congruence.
    + lia.
    + intros q [<-|Hq]; [cbn; lia|auto].
Qed.
Lemma bbox_lo_lowest p : proper p -> is_lowest p (bbox_lo p).
Proof.
  unfold proper, is_lowest, bbox_lo. destruct (sp_hull p) as [|[x y] t]; [easy|]. intros _.
  destruct (fold_min t y) as (H1 & H2 & H3). split.
  - destruct H1 as [E|[x' H]]; [exists x; left; now rewrite E|exists x'; now right].
  - intros q [<-|Hq]; cbn; auto.
Qed.
Lemma bbox_hi_highest p : proper p -> is_highest p (bbox_hi p).
Proof.
  unfold proper, is_highest, bbox_hi. destruct (sp_hull p) as [|[x y] t]; [easy|]. intros _.
  destruct (fold_max t y) as (H1 & H2 & H3). split.
  - destruct H1 as [E|[x' H]]; [exists x; left; now rewrite E|exists x'; now right].
  - intros q [<-|Hq]; cbn; auto.
Qed.
Lemma lowest_unique p y y' : is_lowest p y -> is_lowest p y' -> y = y'.
Proof.
  intros [[x H1] H2] [[x' H3] H4]. specialize (H2 _ H3). specialize (H4 _ H1). cbn in *. lia.
Qed.
Lemma highest_unique p y y' : is_highest p y -> is_highest p y' -> y = y'.
Proof.
  intros [[x H1] H2] [[x' H3] H4]. specialize (H2 _ H3). specialize (H4 _ H1). cbn in *. lia.
Qed.
Lemma bbox_le p : bbox_lo p <= bbox_hi p.
Proof.
  destruct (sp_hull p) eqn:E; [unfold bbox_lo, bbox_hi; rewrite E; lia|].
  assert (Hp : proper p) by (unfold proper; congruence).
  destruct (bbox_lo_lowest p Hp) as [[x H] _], (bbox_hi_highest p Hp) as [_ H']. now apply (H' _ H).
Qed.
Lemma ned_max p : nearest_edge_distance p = Z.max 0 (bbox_lo p).
Proof.
  unfold nearest_edge_distance. assert (H := bbox_le p). destruct (Z.ltb_spec (Z.min (bbox_lo p) (bbox_hi p)) 0); lia.
Qed.
Lemma ned_distance p d : proper p -> distance p d <-> d = nearest_edge_distance p.
Proof.
  intros Hp. rewrite ned_max. split.
  - intros (y & Hy & ->). now rewrite (lowest_unique p y _ Hy (bbox_lo_lowest p Hp)).
  - intros ->. exists (bbox_lo p). split; [now apply bbox_lo_lowest|reflexivity].
Qed.

(** * the nearest polygon *)
Definition nearest_of (l : list spoly) (d : Z) (p : spoly) : Prop :=
  d = nearest_edge_distance p /\
  exists before after, l = (before ++ p :: after)%list
    /\ (forall q, In q before -> d < nearest_edge_distance q)
    /\ (forall q, In q after -> d <= nearest_edge_distance q).
Lemma closer_fold : forall ps d p before after,
  nearest_of (before ++ p :: after) d p ->
  (forall q, In q before -> d < nearest_edge_distance q) ->
  (forall q, In q after -> d <= nearest_edge_distance q) ->
  exists d' p', fold_left closer ps (Some d, p) = (Some d', p') /\ nearest_of ((before ++ p :: after) ++ ps) d' p'.
Proof.
  induction ps as [|q ps IH]; intros d p before after Hn Hb Ha.
  - exists d, p. rewrite app_nil_r. auto.
  - cbn [fold_left]. unfold closer at 2. cbn [fst].
    destruct Hn as [Hd _].
    destruct (Z.ltb_spec (nearest_edge_distance q) d) as [Hlt|Hge].
    + assert (A1 : forall r, In r (before ++ p :: after)%list -> nearest_edge_distance q < nearest_edge_distance r).
      { intros r Hr. apply in_app_iff in Hr. destruct Hr as [Hr|[<-|Hr]].
        - specialize (Hb r Hr). lia.
        - lia.
        - specialize (Ha r Hr). lia. }
      destruct (IH (nearest_edge_distance q) q (before ++ p :: after)%list []) as (d' & p' & E & H).
      * split; [reflexivity|]. exists (before ++ p :: after)%list, []. split; [reflexivity|]. split; [exact A1|intros r []].
      * exact A1.
      * intros r [].
      * exists d', p'. split; [exact E|]. rewrite <- app_assoc in H. exact H.
    + destruct (IH d p before (after ++ [q])%list) as (d' & p' & E & H).
      * split; [exact Hd|]. exists before, (after ++ [q])%list. split; [reflexivity|]. split; [exact Hb|].
        intros r Hr. apply in_app_iff in Hr. destruct Hr as [Hr|[<-|[]]]; [now apply Ha|lia].
      * exact Hb.
      * intros r Hr. apply in_app_iff in Hr. destruct Hr as [Hr|[<-|[]]]; [now apply Ha|lia].
      * exists d', p'. split; [exact E|].
        replace ((before ++ p :: after) ++ q :: ps)%list with ((before ++ p :: after ++ [q]) ++ ps)%list; [exact H|].
        rewrite <- !app_assoc. cbn. now rewrite <- !app_assoc.
Qed.
Lemma find_nearest_ok ps : ps <> [] -> exists d p, find_nearest ps = Some (Some d, p) /\ nearest_of ps d p.
Proof.
  destruct ps as [|p ps]; [easy|]. intros _. unfold find_nearest. cbn [fold_left].
  unfold closer at 2. cbn [fst].
  destruct (closer_fold ps (nearest_edge_distance p) p [] []) as (d' & p' & E & H).
  - split; [reflexivity|]. exists [], []. repeat split; intros q [].
  - intros q [].
  - intros q [].
  - exists d', p'. split; [now rewrite E|exact H].
Qed.
Lemma nearest_of_first l d p : Forall proper l -> nearest_of l d p -> first_nearest l d p.
Proof.
  intros Hp (Hd & before & after & -> & Hb & Ha). rewrite Forall_forall in Hp.
  split.
  - apply ned_distance; [|exact Hd]. apply Hp. apply in_or_app. right. now left.
  - exists before, after. split; [reflexivity|]. split; intros q Hq d' Hd'.
    + apply ned_distance in Hd'; [subst d'; auto|]. apply Hp. apply in_or_app. now left.
    + apply ned_distance in Hd'; [subst d'; auto|]. apply Hp. apply in_or_app. right. now right.
Qed.
Lemma nearest_of_min l d p : nearest_of l d p -> In p l /\ forall q, In q l -> d <= nearest_edge_distance q.
Proof.
  intros (Hd & before & after & -> & Hb & Ha). split; [apply in_or_app; right; now left|].
  intros q Hq. apply in_app_iff in Hq. destruct Hq as [Hq|[<-|Hq]]; [specialize (Hb q Hq); lia|lia|auto].
Qed.

(** * one interval *)
Section Interval.
Variables (n inside : nat) (top : Z).
Hypothesis Hin : (inside < n)%nat.

Definition is_lat (k : nat) : bool := Nat.eqb k n || Nat.eqb inside k.

(* invariant of the first loop after the entries [done] *)
Record lat_inv (done : list (nat * list spoly)) (s : lat) : Prop := {
  li_events : exists sw, l_events s = map EvSidewall sw /\
     Forall2 (fun p ps => exists d, nearest_of ps d p) sw
       (flat_map (fun e => if Nat.eqb (fst e) inside then [snd e] else []) done);
  li_none : l_dist s = None -> l_edge s = None /\ (forall e, In e done -> is_lat (fst e) = false);
  li_some : forall d, l_dist s = Some d -> exists p e,
     l_edge s = Some e /\ nearest_edge p = Some e /\ nearest_edge_distance p = d
     /\ (exists k ps, In (k, ps) done /\ is_lat k = true /\ In p ps)
     /\ (forall k ps q, In (k, ps) done -> is_lat k = true -> In q ps -> d <= nearest_edge_distance q) }.

Lemma lateral_none pbc : fold_left (lateral_step n inside) pbc None = None.
Proof. induction pbc; auto. Qed.

Lemma lateral_fold : forall rest done s s',
  lat_inv done s -> fold_left (lateral_step n inside) rest (Some s) = Some s' -> lat_inv (done ++ rest) s'.
Proof.
  induction rest as [|[k ps] rest IH]; intros done s s' Hi Hf.
  - cbn in Hf. injection Hf as <-. now rewrite app_nil_r.
  - cbn [fold_left] in Hf.
    destruct (lateral_step n inside (Some s) (k, ps)) as [s1|] eqn:E; [|now rewrite lateral_none in Hf].
    replace (done ++ (k, ps) :: rest)%list with ((done ++ [(k, ps)]) ++ rest)%list by now rewrite <- app_assoc.
    apply (IH _ s1); [|exact Hf]. clear IH Hf s' rest.
    unfold lateral_step in E. cbn [fst snd] in E. fold (is_lat k) in E.
    destruct (is_lat k) eqn:Ek.
    + destruct ps as [|p0 ps0]; [discriminate E|].
      destruct (find_nearest_ok (p0 :: ps0)) as (d & p & Ef & Hn); [discriminate|].
      set (ps := p0 :: ps0) in *. rewrite Ef in E.
      destruct (nearest_of_min _ _ _ Hn) as [Hpin Hmin].
      destruct Hi as [[sw [Hsw HF]] Hnone Hsome].
      assert (HE : forall evs', l_events s1 = evs' ->
        evs' = (if Nat.eqb k n then l_events s else l_events s ++ [EvSidewall p])%list ->
        exists sw0, l_events s1 = map EvSidewall sw0 /\
          Forall2 (fun p ps => exists d, nearest_of ps d p) sw0
            (flat_map (fun e => if Nat.eqb (fst e) inside then [snd e] else []) (done ++ [(k, ps)]))).
      { intros evs' -> ->. rewrite flat_map_app. cbn [flat_map fst snd]. rewrite app_nil_r.
        destruct (Nat.eqb_spec k n) as [->|Hkn].
        - destruct (Nat.eqb_spec n inside); [lia|]. rewrite app_nil_r. exists sw. auto.
        - destruct (Nat.eqb_spec k inside) as [->|Hki].
          + exists (sw ++ [p])%list. rewrite Hsw, map_app. split; [reflexivity|].
            apply Forall2_app; [exact HF|]. constructor; [exists d; exact Hn|constructor].
          + exfalso. unfold is_lat in Ek. apply Bool.orb_true_iff in Ek. destruct Ek as [Ek|Ek]; apply Nat.eqb_eq in Ek; lia. }
      destruct (l_dist s) as [b|] eqn:Eb.
      * cbn [dist_lt] in E. destruct (Hsome b eq_refl) as (p1 & e1 & A1 & A2 & A3 & (k1 & ps1 & A4 & A5 & A6) & A7).
        destruct (Z.ltb_spec d b) as [Hlt|Hge].
        -- destruct (nearest_edge p) as [ed|] eqn:Ee; [|discriminate E]. injection E as <-.
           split; cbn [l_dist l_edge l_events].
           ++ eapply HE; cbn; reflexivity.
           ++ discriminate.
           ++ intros d0 [= <-]. exists p, ed. split; [reflexivity|]. split; [exact Ee|].
              split; [now destruct Hn|]. split.
              ** exists k, ps. rewrite in_app_iff. cbn. auto.
              ** intros k' ps' q Hk'. rewrite in_app_iff in Hk'. destruct Hk' as [Hk'|[[= <- <-]|[]]]; intros Hl Hq.
                 --- specialize (A7 k' ps' q Hk' Hl Hq). lia.
                 --- now apply Hmin.
        -- injection E as <-. rewrite A1. split; cbn [l_dist l_edge l_events].
           ++ eapply HE; cbn; reflexivity.
           ++ discriminate.
           ++ intros d0 [= <-]. exists p1, e1. split; [reflexivity|]. split; [exact A2|].
              split; [exact A3|]. split.
              ** exists k1, ps1. rewrite in_app_iff. auto.
              ** intros k' ps' q Hk'. rewrite in_app_iff in Hk'. destruct Hk' as [Hk'|[[= <- <-]|[]]]; intros Hl Hq.
                 --- now apply (A7 k' ps' q Hk' Hl Hq).
                 --- specialize (Hmin q Hq). lia.
      * destruct (nearest_edge p) as [ed|] eqn:Ee; [|discriminate E]. injection E as <-.
        destruct (Hnone eq_refl) as [_ Hno].
        split; cbn [l_dist l_edge l_events].
        -- eapply HE; cbn; reflexivity.
        -- discriminate.
        -- intros d0 [= <-]. exists p, ed. split; [reflexivity|]. split; [exact Ee|]. split; [now destruct Hn|]. split.
           ++ exists k, ps. rewrite in_app_iff. cbn. auto.
           ++ intros k' ps' q Hk'. rewrite in_app_iff in Hk'. destruct Hk' as [Hk'|[[= <- <-]|[]]]; intros Hl Hq.
              ** specialize (Hno _ Hk'). cbn in Hno. congruence.
              ** now apply Hmin.
    + injection E as <-. destruct Hi as [[sw [Hsw HF]] Hnone Hsome]. split.
      * exists sw. split; [exact Hsw|]. rewrite flat_map_app. cbn [flat_map fst snd].
        unfold is_lat in Ek. apply Bool.orb_false_iff in Ek. destruct Ek as [_ Ek]. rewrite Nat.eqb_sym, Ek.
        now rewrite app_nil_r.
      * intros H. destruct (Hnone H) as [H1 H2]. split; [exact H1|]. intros e He.
        apply in_app_iff in He. destruct He as [He|[<-|[]]]; auto.
      * intros d H. destruct (Hsome d H) as (p & e & A1 & A2 & A3 & (k1 & ps1 & A4 & A5 & A6) & A7).
        exists p, e. split; [exact A1|]. split; [exact A2|]. split; [exact A3|]. split.
        -- exists k1, ps1. rewrite in_app_iff. auto.
        -- intros k' ps' q Hk'. rewrite in_app_iff in Hk'. destruct Hk' as [Hk'|[[= <- <-]|[]]]; intros Hl Hq.
           ++ now apply (A7 k' ps').
           ++ congruence.
Qed.

Lemma lateral_start : lat_inv [] (Lat None None []).
Proof. split; cbn. - exists []. split; [reflexivity|constructor]. - intros _. split; [reflexivity|intros e []]. - discriminate. Qed.

(** when does it not raise *)
Lemma lateral_runs : forall rest s,
  (forall k ps, In (k, ps) rest -> is_lat k = true -> ps <> [] /\ Forall (fun p => nearest_edge p <> None) ps) ->
  exists s', fold_left (lateral_step n inside) rest (Some s) = Some s'.
Proof.
  induction rest as [|[k ps] rest IH]; intros s H; [eexists; reflexivity|].
  cbn [fold_left].
  assert (X : exists s1, lateral_step n inside (Some s) (k, ps) = Some s1).
  { unfold lateral_step. cbn [fst snd]. fold (is_lat k). destruct (is_lat k) eqn:Ek; [|eauto].
    destruct (H k ps) as [Hne HF]; [now left|exact Ek|].
    destruct (find_nearest_ok ps Hne) as (d & p & E & Hn). rewrite E.
    apply nearest_of_min in Hn. destruct Hn as [Hp _]. rewrite Forall_forall in HF. specialize (HF p Hp).
    destruct (nearest_edge p) as [e|]; [|congruence].
    destruct (l_dist s) as [b|]; [cbn [dist_lt]; destruct (d <? b)|]; eauto. }
  destruct X as [s1 ->]. apply IH. intros k' ps' Hk. apply H. now right.
Qed.

Lemma fringes_flat pbc l lateral :
  fringes (flat_map (fringe_step n inside pbc lateral) l)
  = map (fun e => (fst e, snd e, fringe_shield n inside pbc lateral (fst e), lateral))
      (filter (fun e => negb (Nat.eqb inside (fst e)) && Nat.ltb (fst e) n) l).
Proof.
  induction l as [|[k ps] l IH]; [reflexivity|].
  cbn [flat_map filter]. unfold fringes in *. rewrite flat_map_app, IH.
  unfold fringe_step. cbn [fst snd]. destruct (Nat.eqb inside k); cbn [negb andb]; [reflexivity|].
  destruct (Nat.ltb k n); reflexivity.
Qed.
Lemma sidewalls_flat pbc l lateral : sidewalls_of (flat_map (fringe_step n inside pbc lateral) l) = [].
Proof.
  induction l as [|[k ps] l IH]; [reflexivity|].
  cbn [flat_map]. unfold sidewalls_of in *. rewrite flat_map_app, IH, app_nil_r.
  unfold fringe_step. cbn [fst snd]. destruct (Nat.eqb inside k); [reflexivity|].
  destruct (Nat.ltb k n); reflexivity.
Qed.
Lemma fringes_sw sw : fringes (map EvSidewall sw) = [].
Proof. induction sw; auto. Qed.
Lemma sidewalls_sw sw : sidewalls_of (map EvSidewall sw) = sw.
Proof. unfold sidewalls_of. induction sw; [reflexivity|]. cbn in *. now rewrite IHsw. Qed.

Lemma shield_in pbc lateral child s : (child < n)%nat -> child <> inside ->
  In s (fringe_shield n inside pbc lateral child) <->
  lateral = Some s \/ exists j ps, between child inside j /\ dget pbc j = Some ps /\ In s ps.
Proof.
  intros Hc Hne. unfold fringe_shield. rewrite in_app_iff.
  assert (A : In s (match lateral with Some p => [p] | None => [] end) <-> lateral = Some s).
  { destruct lateral; cbn; [split; [intros [->|[]]; reflexivity|intros [= ->]; auto]|split; [tauto|discriminate]]. }
  rewrite A.
  assert (B : forall i m, (i + m <= n)%nat -> In s (flat_map (layer_shields n pbc) (seq i m)) <->
     exists j ps, (i <= j < i + m)%nat /\ dget pbc j = Some ps /\ In s ps).
  { intros i m Hm. rewrite in_flat_map. split.
    - intros (j & Hj & Hs). apply in_seq in Hj. unfold layer_shields in Hs.
      destruct (Nat.ltb_spec j n); [|destruct Hs]. destruct (dget pbc j) as [ps|] eqn:E; [|destruct Hs].
      exists j, ps. auto.
    - intros (j & ps & Hj & E & Hs). exists j. split; [apply in_seq; lia|]. unfold layer_shields.
      destruct (Nat.ltb_spec j n); [|lia]. now rewrite E. }
  unfold between.
  destruct (Nat.ltb_spec child inside) as [H|H].
  - rewrite B by lia. split; (intros [?|(j & ps & H1 & H2)]; [now left|right; exists j, ps; split; [lia|exact H2]]).
  - destruct (Nat.ltb_spec inside child) as [H'|H']; [|lia].
    rewrite B by lia. split; (intros [?|(j & ps & H1 & H2)]; [now left|right; exists j, ps; split; [lia|exact H2]]).
Qed.
Lemma fringes_app a b : fringes (a ++ b) = (fringes a ++ fringes b)%list.
Proof. apply flat_map_app. Qed.
Lemma sidewalls_app a b : sidewalls_of (a ++ b) = (sidewalls_of a ++ sidewalls_of b)%list.
Proof. apply flat_map_app. Qed.

Lemma pick_key (pbc : dict nat (list spoly)) : dwf pbc ->
  flat_map (fun e : nat * list spoly => if Nat.eqb (fst e) inside then [snd e] else []) pbc
  = match dget pbc inside with Some ps => [ps] | None => [] end.
Proof.
  induction pbc as [|[k ps] t IH]; intros Hw; [reflexivity|].
  unfold dwf in *. cbn in Hw. inversion Hw as [|? ? Hni Hw']; subst. cbn [flat_map fst snd dget].
  rewrite IH by exact Hw'. destruct (eq_dec inside k) as [->|Hne].
  - rewrite Nat.eqb_refl. cbn. destruct (dget t k) eqn:E; [|reflexivity].
    exfalso. apply Hni. now apply dget_Some_key in E.
  - destruct (Nat.eqb_spec k inside); [congruence|]. reflexivity.
Qed.

Lemma interval_main pbc evs : proper_nb pbc -> on_interval n inside top pbc = Some evs ->
  exists lateral,
    (forall c ps sh l, In (c, ps, sh, l) (fringes evs) <->
       (c < n)%nat /\ c <> inside /\ dget pbc c = Some ps /\ sh = fringe_shield n inside pbc lateral c /\ l = lateral)
    /\ NoDup (map (fun f => fst (fst (fst f))) (fringes evs))
    /\ match dget pbc inside with
       | Some ps => exists p d, sidewalls_of evs = [p] /\ first_nearest ps d p
       | None => sidewalls_of evs = []
       end
    /\ (lateral = None -> forall p, ~ laterals n inside pbc p)
    /\ (forall l, lateral = Some l -> exists p e d, laterals n inside pbc p /\ distance p d
          /\ (forall q d', laterals n inside pbc q -> distance q d' -> d <= d')
          /\ nearest_edge p = Some e /\ l = lateral_polygon top e).
Proof.
  intros [Hw Hprop] E. unfold on_interval in E.
  destruct (fold_left (lateral_step n inside) pbc (Some (Lat None None []))) as [s|] eqn:Ef; [|discriminate E].
  apply (lateral_fold pbc [] _ _ lateral_start) in Ef. cbn [app] in Ef.
  set (lateral := match l_edge s with Some e => Some (lateral_polygon top e) | None => None end) in *.
  injection E as <-. exists lateral. destruct Ef as [[sw [Hsw HF]] Hnone Hsome].
  assert (Hlat : forall p, laterals n inside pbc p <-> exists k ps, In (k, ps) pbc /\ is_lat k = true /\ In p ps).
  { intros p. unfold laterals, is_lat. split.
    - intros (k & ps & Hk & Hg & Hp). exists k, ps. split; [now apply dget_In|]. split; [|exact Hp].
      apply Bool.orb_true_iff. destruct Hk as [->| ->]; [right|left]; apply Nat.eqb_refl.
    - intros (k & ps & Hi & Hk & Hp). exists k, ps. split; [|split; [now apply In_dget|exact Hp]].
      apply Bool.orb_true_iff in Hk. destruct Hk as [Hk|Hk]; apply Nat.eqb_eq in Hk; auto. }
  assert (Hpr : forall k ps p, In (k, ps) pbc -> In p ps -> proper p).
  { intros k ps p Hi Hp. apply In_dget in Hi; [|exact Hw]. specialize (Hprop _ _ Hi). rewrite Forall_forall in Hprop. auto. }
  rewrite fringes_app, sidewalls_app, Hsw, fringes_sw, sidewalls_sw, sidewalls_flat, app_nil_r, fringes_flat.
  cbn [app]. split; [|split; [|split; [|split]]].
  - intros c ps sh l. rewrite in_map_iff. split.
    + intros ([k ps'] & Heq & Hin'). cbn [fst snd] in Heq. injection Heq as <- <- <- <-.
      apply filter_In in Hin'. destruct Hin' as [Hi Hc]. cbn [fst] in Hc. apply andb_prop in Hc. destruct Hc as [H1 H2].
      apply Bool.negb_true_iff, Nat.eqb_neq in H1. apply Nat.ltb_lt in H2.
      split; [exact H2|]. split; [congruence|]. split; [now apply In_dget|]. auto.
    + intros (H1 & H2 & H3 & -> & ->). exists (c, ps). split; [reflexivity|]. apply filter_In.
      split; [now apply dget_In|]. cbn [fst]. apply andb_true_intro. split; [|now apply Nat.ltb_lt].
      apply Bool.negb_true_iff, Nat.eqb_neq. congruence.
  - rewrite map_map. cbn [fst snd]. clear - Hw. unfold dwf, dkeys in Hw.
    induction pbc as [|[k ps] t IH]; [constructor|]. cbn in Hw. inversion Hw; subst. cbn [filter fst].
    destruct (negb (Nat.eqb inside k) && Nat.ltb k n); [|auto]. cbn [map]. constructor; [|auto].
    intros H. apply H1. apply in_map_iff in H. destruct H as (e & Heq & He). apply filter_In in He.
    apply in_map_iff. exists e. tauto.
  - rewrite (pick_key pbc Hw) in HF. destruct (dget pbc inside) as [ps|] eqn:Eg.
    + inversion HF as [|p ps' sw' l' [d Hd] HF']; subst. inversion HF'; subst. exists p, d.
      split; [reflexivity|]. apply nearest_of_first; [|exact Hd]. now apply (Hprop inside).
    + now inversion HF.
  - unfold lateral. intros Hl p Hp. apply Hlat in Hp. destruct Hp as (k & ps & Hi & Hk & _).
    destruct (l_dist s) as [d|].
    + destruct (Hsome d eq_refl) as (? & e & He & _). rewrite He in Hl. discriminate.
    + destruct (Hnone eq_refl) as [_ H]. specialize (H _ Hi). cbn in H. congruence.
  - unfold lateral. intros l Hl. destruct (l_dist s) as [d|].
    + destruct (Hsome d eq_refl) as (p & e & He & Hne & Hd & (k & ps & Hi & Hk & Hp) & Hmin).
      rewrite He in Hl. injection Hl as <-. exists p, e, d. split; [apply Hlat; eauto|]. split.
      * apply ned_distance; [eapply Hpr; eauto|now symmetry].
      * split; [|auto]. intros q d' Hq Hd'. apply Hlat in Hq. destruct Hq as (k' & ps' & Hi' & Hk' & Hq).
        apply ned_distance in Hd'; [subst d'; eapply Hmin; eauto|eapply Hpr; eauto].
    + destruct (Hnone eq_refl) as [He _]. rewrite He in Hl. discriminate.
Qed.
End Interval.

(** * emit_fringe *)
Section Fringe.
Local Open Scope Qc_scope.
Variable cut : spoly -> list spoly -> list spoly.
Variable fringe_cap : Z -> Z -> Z -> Qc -> Qc -> option Qc.
Variables (substrate ins_layer ins_net out_layer : string) (shield : list spoly) (len : Z) (oc sc : Qc).
Local Notation pieces := (pieces cut substrate ins_net out_layer shield).
Local Notation cap_of := (cap_of fringe_cap ins_layer ins_net out_layer len oc sc).

Definition flatten (d : dict string (list spoly)) : list (string * list (Z * Z)) :=
  flat_map (fun e => map (fun p => (fst e, sp_hull p)) (snd e)) d.
Lemma flatten_append d net l :
  Permutation (flatten (dset d net (match dget d net with Some x => x | None => [] end ++ l)%list))
              (flatten d ++ map (fun p => (net, sp_hull p)) l).
Proof.
  induction d as [|[k v] t IH]; [cbn; now rewrite app_nil_r|].
  cbn [dset dget]. destruct (eq_dec net k) as [->|Hne].
  - unfold flatten. cbn [flat_map fst snd]. rewrite map_app, <- !app_assoc. apply Permutation_app_head.
    apply Permutation_app_comm.
  - unfold flatten in *. cbn [flat_map fst snd]. rewrite <- app_assoc. apply Permutation_app_head. exact IH.
Qed.
Lemma group_perm polys : forall d,
  Permutation (flatten (fold_left (group_step substrate cut ins_net out_layer shield) polys d)) (flatten d ++ pieces polys).
Proof.
  induction polys as [|p polys IH]; intros d; [cbn; now rewrite app_nil_r|].
  cbn [fold_left]. rewrite IH. unfold pieces at 2. cbn [flat_map]. fold (pieces polys). rewrite app_assoc.
  apply Permutation_app_tail. unfold group_step.
  change (net_of substrate out_layer (sp_net p)) with (outside_net substrate out_layer p).
  destruct (eqb ins_net (outside_net substrate out_layer p)); [now rewrite app_nil_r|].
  unfold unshielded. destruct shield as [|s0 sh]; [apply (flatten_append d _ [p])|].
  destruct (cut p (s0 :: sh)) as [|u us]; [cbn; now rewrite app_nil_r|].
  rewrite flatten_append, map_map. apply Permutation_app_head. cbn [sp_hull]. apply Permutation_refl.
Qed.

Definition piece_step (s : fr) (e : string * list (Z * Z)) : fr :=
  emit_piece fringe_cap ins_layer ins_net out_layer len oc sc (fst e) s (SPoly (fst e) (snd e)).
Lemma emit_hull out_net s p : emit_piece fringe_cap ins_layer ins_net out_layer len oc sc out_net s p
  = piece_step s (out_net, sp_hull p).
Proof. reflexivity. Qed.
Lemma emit_flat d : forall s,
  fold_left (fun s e => fold_left (emit_piece fringe_cap ins_layer ins_net out_layer len oc sc (fst e)) (snd e) s) d s
  = fold_left piece_step (flatten d) s.
Proof.
  induction d as [|[k v] t IH]; intros s; [reflexivity|]. cbn [fold_left flatten flat_map fst snd].
  rewrite fold_left_app, IH. unfold flatten. f_equal. clear IH t. revert s.
  induction v as [|p v IH]; intros s; [reflexivity|]. cbn [fold_left map]. rewrite emit_hull. apply IH.
Qed.

Lemma piece_step_ok caps e : (thin e = false -> fringe_cap len (near (snd e)) (far (snd e)) oc sc <> None) ->
  piece_step (FrDone false caps) e = if thin e then FrDone true caps else FrDone false (caps ++ cap_of e).
Proof.
  intros Hd. unfold piece_step, emit_piece. cbn [fst snd].
  assert (E1 : bbox_lo (SPoly (fst e) (snd e)) = bbox_lo (SPoly EmptyString (snd e))) by reflexivity.
  assert (E2 : bbox_hi (SPoly (fst e) (snd e)) = bbox_hi (SPoly EmptyString (snd e))) by reflexivity.
  rewrite E1, E2. assert (Hle := bbox_le (SPoly EmptyString (snd e))).
  assert (N : (if (bbox_lo (SPoly EmptyString (snd e)) <? 0)%Z then 0%Z else bbox_lo (SPoly EmptyString (snd e))) = near (snd e)).
  { unfold near. destruct (Z.ltb_spec (bbox_lo (SPoly EmptyString (snd e))) 0); lia. }
  assert (F : (if (bbox_hi (SPoly EmptyString (snd e)) <? 0)%Z then 0%Z else bbox_hi (SPoly EmptyString (snd e))) = far (snd e)).
  { unfold far. destruct (Z.ltb_spec (bbox_hi (SPoly EmptyString (snd e))) 0); lia. }
  rewrite N, F. destruct (Z.ltb_spec (far (snd e)) (near (snd e))); [unfold near, far in *; lia|].
  unfold thin, cap_of in *. destruct (Z.eqb (far (snd e)) (near (snd e))); [reflexivity|].
  destruct (fringe_cap len (near (snd e)) (far (snd e)) oc sc) as [v|]; [|now destruct (Hd eq_refl)].
  destruct (qltb (Q2Qc (1 # 10000)) v); [reflexivity|]. now rewrite app_nil_r.
Qed.
Lemma returned_stays l caps : fold_left piece_step l (FrDone true caps) = FrDone true caps.
Proof. induction l; auto. Qed.
Lemma pieces_fold l : forall caps,
  (forall e, In e l -> thin e = false -> fringe_cap len (near (snd e)) (far (snd e)) oc sc <> None) ->
  exists r, fold_left piece_step l (FrDone false caps) = FrDone r (caps ++ flat_map cap_of (until_thin l)).
Proof.
  induction l as [|e l IH]; intros caps H; [exists false; cbn; now rewrite app_nil_r|].
  cbn [fold_left until_thin]. rewrite piece_step_ok by (intros; apply H; [now left|assumption]).
  destruct (thin e) eqn:Et.
  - rewrite returned_stays. cbn. rewrite app_nil_r. eauto.
  - destruct (IH (caps ++ cap_of e)%list) as [r Hr]; [intros e' He; apply H; now right|].
    exists r. rewrite Hr. cbn [flat_map]. now rewrite app_assoc.
Qed.
Lemma until_thin_all l : (forall e, In e l -> thin e = false) -> until_thin l = l.
Proof. induction l as [|e l IH]; intros H; [reflexivity|]. cbn. rewrite H by now left. f_equal. apply IH. intros; apply H; now right. Qed.
End Fringe.
