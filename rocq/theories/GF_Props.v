(** C104: FasterCap reads exactly the bodies of the layout from the files it is given: every net is one conductor, made of the panels of its surfaces,
    each with the permittivity of the material outside and a reference point on this side; every surface between dielectrics has the two
    permittivities on the right sides.  Names of nets with a blank or a slash break this. *)
From Coq Require Import ZArith Reals Qreals Lra Lia Psatz String Ascii List Permutation.
From Flocq Require Import Core.Core IEEE754.BinarySingleNaN.
From Verif Require Import PyBase PyLib PyStr FP_Model FP_Spec FP_Proofs NX_Model NF_Model NF_Spec NF_Proofs NF_Text NF_Props TG_Model TG_Spec TG_Proofs ST_Model ST_Spec ST_Proofs GF_Model GF_Spec GF_Proofs.
From Verif Require FG_Model FG_Spec FG_Proofs FG_Props TG_Props ST_Props EN_Proofs NX_Proofs.
Import ListNotations.
Local Close Scope Qc_scope.
Local Open Scope string_scope.
Local Open Scope list_scope.
Local Open Scope R_scope.

(** ** one reading *)
Lemma decimals_unique : forall ws xs ys, Forall2 decimal ws xs -> Forall2 decimal ws ys -> xs = ys.
Proof. apply unique_list. intros a b b'. apply decimal_unique. Qed.
Lemma panel_row_unique num num' r p p' : panel_row num r p -> panel_row num' r p' -> num = num' /\ p = p'.
Proof. intros A B. destruct A as [ws ? ? ? ? ? ? ? ? ? ? ? ? F]. inversion B as [ws' ? ? ? ? ? ? ? ? ? ? ? ? F']; subst. split; [reflexivity|]. assert (X := decimals_unique _ _ _ F F'). injection X as -> -> -> -> -> -> -> -> -> -> -> ->. reflexivity. Qed.
Lemma panel_row_head num r p : panel_row num r p -> exists ws, r = "T" :: num :: ws. Proof. intros []. eexists. reflexivity. Qed.
Lemma panel_rows_unique num : forall rest ps nm, panel_rows num rest ps nm -> forall ps' nm', panel_rows num rest ps' nm' -> ps = ps' /\ nm = nm'.
Proof.
  induction 1 as [|name|r p rest ps nm R P IH]; intros ps' nm' Q; inversion Q as [|name'|r' p' rest' qs nm'' R' Q']; subst; try (now split).
  all: try (match goal with X : panel_row _ ["N"; _; _] _ |- _ => destruct (panel_row_head _ _ _ X) as (ws & E); discriminate E end).
  - destruct (panel_row_unique _ _ _ _ _ R R') as [_ ->]. destruct (IH _ _ Q') as [-> ->]. now split.
Qed.
Lemma panels_unique text num num' ps ps' nm nm' : panels text num ps nm -> panels text num' ps' nm' -> num = num' /\ ps = ps' /\ nm = nm'.
Proof.
  intros (N & title & rest & E & P) (N' & title' & rest' & E' & P'). rewrite E in E'. injection E' as <- <-.
  assert (X : num = num'); [|subst num'; split; [reflexivity|exact (panel_rows_unique _ _ _ _ P _ _ P')]].
  inversion P as [|name|r p rest0 ps0 nm0 R P0]; subst; try contradiction. inversion P' as [|name'|r' p' rest0' ps0' nm0' R' P0']; subst; try contradiction.
  exact (proj1 (panel_row_unique _ _ _ _ _ R R')).
Qed.
Section Unique.
Variable fs : dict string string.
Lemma file_unique fn num num' ps ps' nm nm' : file fs fn num ps nm -> file fs fn num' ps' nm' -> num = num' /\ ps = ps' /\ nm = nm'.
Proof. intros (t & D & P) (t' & D' & P'). rewrite D in D'. injection D' as <-. exact (panels_unique _ _ _ _ _ _ _ P P'). Qed.
Lemma conductor_rows_unique num : forall g qs nm, conductor_rows fs num g qs nm -> forall num' g' qs' nm' rest rest', conductor_rows fs num' g' qs' nm' -> g ++ rest = g' ++ rest' ->
  rest = rest' /\ num = num' /\ qs = qs' /\ nm = nm'.
Proof.
  induction 1 as [fn k x ps nm F D|fn k x ps g qs nm F D C IH]; intros num' g' qs' nm' rest rest' Q E; destruct Q as [fn' k' x' ps' nm' F' D'|fn' k' x' ps' g' qs' nm' F' D' Q]; cbn in E.
  - injection E as -> -> ->. destruct (file_unique _ _ _ _ _ _ _ F F') as (-> & -> & X). injection X as ->. rewrite (decimal_unique _ _ _ D D'). now repeat split.
  - discriminate E.
  - discriminate E.
  - injection E as -> -> E. destruct (file_unique _ _ _ _ _ _ _ F F') as (-> & -> & _). rewrite (decimal_unique _ _ _ D D'). destruct (IH _ _ _ _ _ _ Q E) as (-> & _ & -> & ->). now repeat split.
Qed.
Lemma conductor_rows_head num g qs nm : conductor_rows fs num g qs nm -> exists r g', g = ("C" :: r) :: g'.
Proof. intros []; eexists; eexists; reflexivity. Qed.
Lemma list_rows_unique : forall rs cs ds, list_rows fs rs cs ds -> forall cs' ds', list_rows fs rs cs' ds' -> cs = cs' /\ ds = ds'.
Proof.
  assert (K : forall num g qs nm rest r rest', conductor_rows fs num g qs nm -> r :: rest' = g ++ rest -> exists t, r = "C" :: t).
  { intros num g qs nm rest r rest' C E. destruct (conductor_rows_head _ _ _ _ C) as (t & g' & ->). injection E as -> _. now exists t. }
  induction 1 as [|w ws rest cs ds L IH|fn num k_out k_in x y r1 r2 r3 ps rest cs ds F X Y L IH|num g qs nm rest cs ds C L IH]; intros cs' ds' Q.
  - inversion Q as [| | |num g qs nm rest cs ds C L E]; subst; [now split|]. destruct (conductor_rows_head _ _ _ _ C) as (t & g' & ->). discriminate E.
  - inversion Q as [|w' ws' rest' cs0 ds0 L'| |num g qs nm rest' cs0 ds0 C L' E]; subst; [now apply IH|]. destruct (K _ _ _ _ _ _ _ C (eq_sym E)) as (t & Z). discriminate Z.
  - inversion Q as [| |fn' num' k_out' k_in' x' y' r1' r2' r3' ps' rest' cs0 ds0 F' X' Y' L'|num' g qs nm rest' cs0 ds0 C L' E]; subst.
    + destruct (file_unique _ _ _ _ _ _ _ F F') as (_ & -> & _). rewrite (decimal_unique _ _ _ X X'), (decimal_unique _ _ _ Y Y'). destruct (IH _ _ L') as [-> ->]. now split.
    + destruct (K _ _ _ _ _ _ _ C (eq_sym E)) as (t & Z). discriminate Z.
  - inversion Q as [E|w' ws' rest' cs0 ds0 L' E|fn' num' k_out' k_in' x' y' r1' r2' r3' ps' rest' cs0 ds0 F' X' Y' L' E|num' g' qs' nm' rest' cs0 ds0 C' L' E]; subst.
    + destruct (conductor_rows_head _ _ _ _ C) as (t & g' & ->). discriminate E.
    + destruct (K _ _ _ _ _ _ _ C E) as (t & Z). discriminate Z.
    + destruct (K _ _ _ _ _ _ _ C E) as (t & Z). discriminate Z.
    + destruct (conductor_rows_unique _ _ _ _ C _ _ _ _ _ _ C' (eq_sym E)) as (-> & -> & -> & ->). destruct (IH _ _ L') as [-> ->]. now split.
Qed.
End Unique.

(** ** files *)
Notation nb := (all_chars (fun c => negb (blank c))).
Lemma written_geos square limit : forall gs fs new, write_geos square limit gs fs = Some new ->
  (forall name, ~ In name (map FG_Model.g_name gs) -> dget new name = dget fs name) /\
  (NoDup (map FG_Model.g_name gs) -> forall g, In g gs -> exists text, geo_text square g = Some text /\ dget new (FG_Model.g_name g) = Some text).
Proof.
  induction gs as [|g gs IH]; intros fs new E; cbn in E; [injection E as <-; split; [reflexivity|intros _ g []]|].
  destruct (can_open limit (FG_Model.g_name g)); [|discriminate]. destruct (geo_text square g) as [t|] eqn:T; [|discriminate]. destruct (IH _ _ E) as [O W]. split.
  - intros name N. cbn in N. rewrite O by tauto. apply dget_dset_other. intros X. apply N. left. congruence.
  - intros D h I. inversion D as [|? ? N D']; subst. destruct I as [<- |I]; [|now apply W]. exists t. split; [exact T|]. rewrite (O _ N). apply dget_dset_same.
Qed.
Lemma nb_take k : forall s, nb s = true -> nb (FG_Model.take k s) = true.
Proof. induction k as [|k IH]; intros [|c s] H; try reflexivity. cbn in *. apply andb_prop in H. destruct H as [-> H]. cbn. now apply IH. Qed.
Lemma nb_slice s e : nb s = true -> nb (FG_Model.slice_to s e) = true.
Proof. intros H. unfold FG_Model.slice_to. destruct (e <? 0)%Z; now apply nb_take. Qed.
Lemma nb_show o : (forall m, o = Some m -> nb m = true) -> nb (FG_Model.show o) = true.
Proof. intros H. destruct o as [[|c m]|]; [reflexivity|exact (H _ eq_refl)|reflexivity]. Qed.
Lemma nb_nat n : nb (nat_str n) = true. Proof. apply nat_str_solid. Qed.
Section Names.
Variables (prefix : string) (k_void : Qc) (mats : dict string Qc) (limit : nat) (hash : string -> string).
Hypothesis P : nb prefix = true.
Hypothesis H : forall n, nb (hash n) = true.
Ltac nbs := repeat first [rewrite all_chars_app; apply andb_true_intro; split | match goal with |- all_chars ?p (String ?c ?s) = true => change (all_chars p s = true) end]; try assumption; try apply nb_nat; try apply H; try reflexivity.
Lemma nb_cond_name n o nn : nb o = true -> nb nn = true -> nb (FG_Model.cond_name prefix (Some limit) hash n o nn) = true.
Proof. intros O N. unfold FG_Model.cond_name. destruct (Nat.ltb _ _); nbs. now apply nb_slice. Qed.
Lemma diel_names : forall (d : dict FG_Model.hkey (list TG_Model.tri)) n a, FG_Model.write_diel prefix k_void mats n d = Some a ->
  (forall k m, In k (dkeys d) -> fst k = Some m \/ snd k = Some m -> nb m = true) -> forall e, In e a -> nb (FG_Model.g_name (fst e)) = true.
Proof.
  induction d as [|[k ts] d IH]; intros n a E M; cbn [FG_Model.write_diel] in E; [injection E as <-; intros e []|].
  assert (M' : forall k m, In k (dkeys d) -> fst k = Some m \/ snd k = Some m -> nb m = true) by (intros; eapply M; [right; eassumption|assumption]).
  destruct ts as [|t ts]; cbn [FG_Model.nonempty] in E; [exact (IH _ _ E M')|]. destruct (FG_Model.k_of k_void mats (fst k)), (FG_Model.k_of k_void mats (snd k)); try discriminate.
  destruct (FG_Model.write_diel prefix k_void mats (S n) d) as [r|] eqn:R; [|discriminate]. injection E as <-. intros e [<- |I]; [|exact (IH _ _ R M' e I)].
  cbn [fst FG_Model.g_name]. assert (A : nb (FG_Model.show (fst k)) = true) by (apply nb_show; intros m X; apply (M k); [now left|tauto]).
  assert (B : nb (FG_Model.show (snd k)) = true) by (apply nb_show; intros m X; apply (M k); [now left|tauto]). nbs.
Qed.
Lemma net_names nn cn : nb nn = true -> forall (l : list (option string * list TG_Model.tri)) n a, FG_Model.write_net prefix k_void mats (Some limit) hash nn cn n l = Some a ->
  (forall o ts m, In (o, ts) l -> o = Some m -> nb m = true) -> forall e, In e a -> nb (FG_Model.g_name (fst e)) = true.
Proof.
  intros N. induction l as [|[o ts] l IH]; intros n a E M; cbn [FG_Model.write_net] in E; [injection E as <-; intros e []|].
  destruct (FG_Model.k_of k_void mats o); [|discriminate]. destruct (FG_Model.write_net prefix k_void mats (Some limit) hash nn cn (S n) l) as [r|] eqn:R; [|discriminate]. injection E as <-.
  intros e [<- |I]; [|exact (IH _ _ R ltac:(intros; eapply M; [right; eassumption|eassumption]) e I)]. cbn [fst FG_Model.g_name]. apply nb_cond_name; [|exact N].
  apply nb_show. intros m X. apply (M o ts m); [now left|exact X].
Qed.
Lemma nets_names : forall (g : dict string (list (option string * list TG_Model.tri))) cn n b, FG_Model.write_nets prefix k_void mats (Some limit) hash cn n g = Some b ->
  (forall nn l, In (nn, l) g -> nb nn = true /\ forall o ts m, In (o, ts) l -> o = Some m -> nb m = true) -> forall e, In e b -> nb (FG_Model.g_name (fst e)) = true.
Proof.
  induction g as [|[nn l] g IH]; intros cn n b E M; cbn [FG_Model.write_nets] in E; [injection E as <-; intros e []|].
  match type of E with match ?x with Some _ => _ | None => _ end = _ => destruct x as [a|] eqn:Ea; [|discriminate] end.
  match type of E with match ?x with Some _ => _ | None => _ end = _ => destruct x as [b'|] eqn:Eb; [|discriminate] end. injection E as <-.
  destruct (M nn l (or_introl eq_refl)) as [N O]. intros e I. apply in_app_or in I. destruct I as [I|I]; [exact (net_names nn _ N l _ _ Ea O e I)|].
  exact (IH _ _ _ Eb ltac:(intros; apply M; now right) e I).
Qed.
End Names.
Lemma numbered_not_list prefix n s : (prefix ++ nat_str n ++ "_" ++ s)%string <> (prefix ++ ".lst")%string.
Proof.
  intros E. apply EN_Proofs.append_inj_r in E. assert (D := FG_Proofs.nat_str_digits n). assert (N := nat_str_some n).
  destruct (nat_str n) as [|c t]; [contradiction|]. injection E as -> _. discriminate D.
Qed.

(** ** the whole layout *)
Lemma all_shown square ts : (forall t, In t ts -> exists p, shown square t p) -> exists ps, Forall2 (shown square) ts ps.
Proof.
  induction ts as [|t ts IH]; intros H; [exists []; constructor|]. destruct (H t (or_introl eq_refl)) as (p & S). destruct IH as (ps & F); [intros; apply H; now right|].
  exists (p :: ps). now constructor.
Qed.
Lemma in_shown square ts ps t : Forall2 (shown square) ts ps -> In t ts -> exists p, shown square t p.
Proof. induction 1 as [|a p ts ps S F IH]; intros []; [subst; now exists p|auto]. Qed.
Lemma in_labels o ts t l : In (o, ts) l -> In t ts -> In (o, t) (net_labels l).
Proof. intros I J. unfold net_labels. apply in_flat_map. exists (o, ts). split; [exact I|]. cbn. now apply in_map. Qed.
Lemma cond_reads_split square k_void mats o : forall ts qs, Forall2 (cond_read square k_void mats) (map (fun t => (o, t)) ts) qs ->
  Forall2 (shown square) ts (map fst qs) /\ Forall (fun q => of_material k_void mats o (snd q)) qs.
Proof.
  induction ts as [|t ts IH]; intros qs F; inversion F as [|? q ? qs' R F']; subst; [split; constructor|]. destruct (IH _ F') as [A B].
  split; constructor; try assumption; [exact (proj1 R)|exact (cond_read_near _ _ _ _ _ R)].
Qed.
Lemma diel_reads_split square k_void mats k : forall ts qs, Forall2 (diel_read square k_void mats) (map (fun t => (k, t)) ts) qs ->
  Forall2 (shown square) ts (map (fun q => fst (fst q)) qs) /\ Forall (fun q => of_material k_void mats (fst k) (snd (fst q)) /\ of_material k_void mats (snd k) (snd q)) qs.
Proof.
  induction ts as [|t ts IH]; intros qs F; inversion F as [|? q ? qs' R F']; subst; [split; constructor|]. destruct (IH _ F') as [A B].
  split; constructor; try assumption; [exact (proj1 R)|exact (diel_read_near _ _ _ _ _ R)].
Qed.
Lemma only_net {A B} (p : A -> bool) (f : A -> list B) l : flat_map (fun s => if p s then f s else []) l = flat_map f (filter p l).
Proof. induction l as [|a l IH]; [reflexivity|]. cbn. destruct (p a); cbn; now rewrite IH. Qed.
Lemma pairwise {A B} (R S : A -> B -> Prop) l m : Forall2 R l m -> (forall a b, In a l -> R a b -> S a b) -> Forall2 S l m.
Proof. induction 1 as [|a b l m X F IH]; intros H; constructor; [apply H; [now left|exact X]|]. apply IH. intros a' b' I. apply H. now right. Qed.
Lemma named_keys {A} (R : string * A -> conductor -> Prop) g cs : Forall2 (fun e c => name c = fst e /\ R e c) g cs -> map name cs = map fst g.
Proof. induction 1 as [|e c g cs [N _] F IH]; [reflexivity|]. cbn. now rewrite N, IH. Qed.
Lemma in_pair {A B} (R : A -> B -> Prop) l m b : Forall2 R l m -> In b m -> exists a, In a l /\ R a b.
Proof. induction 1 as [|x y l m X F IH]; intros []; [subst; exists x; split; [now left|exact X]|]. destruct IH as (a & I & Y); [assumption|]. exists a. split; [now right|exact Y]. Qed.

Section C104.
Variables (n d : Z) (square : float -> float) (limit : nat) (prefix : string) (k_void : Qc) (mats : dict string Qc) (hash : string -> string).
Variables (dl : list diel_surface) (cl : list cond_surface).
Hypothesis G : grid_ok n d.
Hypothesis SQ : squares square.
Hypothesis CO : Forall cond_ok cl.
Hypothesis DO : Forall diel_ok dl.
Hypothesis TM : Forall two_materials dl.
Notation dbu := (lit n d).
Notation u := (IZR n / IZR d).
Notation grouped := (FG_Model.group (cond_data dbu cl)).
Lemma group_net nn l : In (nn, l) grouped -> Permutation (flat_map (fun s => map (fun t => (snd (net_and_outside s), t)) (cond_tris dbu s)) (filter (of_net nn) cl)) (net_labels l).
Proof.
  intros I. destruct (FG_Proofs.group_spec (cond_data dbu cl)) as (W & _). assert (X := net_perm dbu cl nn). assert (J := In_dget _ _ W I).
  match type of X with Permutation _ match ?a with Some _ => _ | None => _ end => change a with (dget grouped nn) in X end. rewrite J, only_net in X. exact X.
Qed.
Lemma group_nonempty nn l o ts : In (nn, l) grouped -> In (o, ts) l -> ts <> [].
Proof.
  intros I J. destruct (FG_Proofs.group_spec (cond_data dbu cl)) as (_ & _ & P). assert (X : In ((nn, o), ts) (FG_Proofs.flat grouped)).
  { unfold FG_Proofs.flat. apply in_flat_map. exists (nn, l). split; [exact I|]. cbn. apply in_map_iff. now exists (o, ts). }
  apply (Permutation_in _ P) in X. apply filter_In in X. destruct X as [_ X]. intros ->. discriminate X.
Qed.
Lemma group_surface nn l o ts t : In (nn, l) grouped -> In (o, ts) l -> In t ts -> exists s, In s cl /\ net_of s = nn /\ snd (net_and_outside s) = o /\ In t (cond_tris dbu s).
Proof.
  intros I J K. assert (X := Permutation_in _ (Permutation_sym (group_net nn l I)) (in_labels o ts t l J K)). apply in_flat_map in X. destruct X as (s & A & B).
  apply filter_In in A. destruct A as [A N]. apply in_map_iff in B. destruct B as (t' & E & B). injection E as E1 E2. subst. exists s. repeat split; auto. now apply String.eqb_eq.
Qed.
Lemma group_nets nn : In nn (dkeys grouped) <-> has_net nn cl.
Proof.
  destruct (FG_Proofs.group_spec (cond_data dbu cl)) as (W & NE & _). split.
  - intros I. apply in_map_iff in I. destruct I as ([k l] & E & I). cbn in E. subst k. destruct l as [|[o [|t ts]] l]; [now destruct (NE _ _ I)|now destruct (group_nonempty nn _ o [] I (or_introl eq_refl))|].
    destruct (group_surface nn _ o (t :: ts) t I (or_introl eq_refl) (or_introl eq_refl)) as (s & A & B & _ & D).
    destruct (proj1 (ST_Props.some_cond dbu s)) as (g & J); [intros E; rewrite E in D; destruct D|]. now exists s, g.
  - intros (s & g & A & B & J). assert (X := net_perm dbu cl nn). match type of X with Permutation _ match ?a with Some _ => _ | None => _ end => destruct a eqn:Y end.
    + apply dget_In in Y. exact (in_map fst _ _ Y).
    + exfalso. apply Permutation_sym, Permutation_nil in X. assert (Z : cond_tris dbu s <> []) by (apply ST_Props.some_cond; now exists g). destruct (cond_tris dbu s) as [|t ts] eqn:T; [now apply Z|].
      assert (Q : In (snd (net_and_outside s), t) []) by (rewrite <- X; apply in_flat_map; exists s; split; [exact A|]; unfold of_net; rewrite B, String.eqb_refl, T; now left). destruct Q.
Qed.
Lemma cond_shown s t : In s cl -> In t (cond_tris dbu s) -> exists p, shown square t p.
Proof. intros I J. rewrite Forall_forall in CO. destruct (cond_surface_panels n d square G SQ s (CO s I)) as (ps & F & _). exact (in_shown _ _ _ _ F J). Qed.
Lemma conductor_made nn l qs : In (nn, l) grouped -> Forall2 (cond_read square k_void mats) (net_labels l) qs -> made_from (cond_panels u k_void mats) (filter (of_net nn) cl) qs.
Proof.
  intros I F. rewrite Forall_forall in CO. destruct (permuted_by _ _ _ _ (group_net nn l I) F) as (qs' & F' & P). apply split_flat in F'. destruct F' as (qss & S & ->).
  exists qss. split; [|now symmetry]. apply (pairwise _ _ _ _ S). intros s o Is R. apply filter_In in Is. destruct (cond_reads_split _ _ _ _ _ _ R) as [A B]. split; [exact B|].
  destruct (cond_surface_panels n d square G SQ s (CO s (proj1 Is))) as (ps & C & D). assert (E := unique_list _ (shown_unique square) _ _ _ A C). destruct s; rewrite E; exact D.
Qed.
Section Diel.
Variable diel : dict FG_Model.hkey (list TG_Model.tri).
Hypothesis C : FG_Model.combine_diel (diel_data dbu dl) = Some diel.
Lemma diel_keys k : In k (dkeys diel) -> exists s, In s dl /\ materials s = k.
Proof.
  intros I. destruct (FG_Proofs.combine_ok _ (TG_Props.diel_wf dbu dl)) as (r & C' & (_ & R2 & _)). rewrite C in C'. injection C' as <-. exact (surface_keys dbu dl k (R2 k I)).
Qed.
Lemma diel_shown_tri k ts t : In (k, ts) diel -> In t ts -> exists p, shown square t p.
Proof.
  intros I J. rewrite Forall_forall in DO. assert (X : In (k, t) (diel_labels diel)) by (apply in_flat_map; exists (k, ts); split; [exact I|]; cbn; now apply in_map).
  apply (Permutation_in _ (Permutation_sym (diel_perm dbu dl diel TM C))) in X. apply in_flat_map in X. destruct X as (s & Is & X). unfold side_labels in X.
  match type of X with In _ (if ?c then _ else _) => destruct c end.
  - apply in_map_iff in X. destruct X as (t' & E & X). injection E as _ <-. destruct (diel_surface_panels n d square G SQ false s (DO s Is)) as (ps & F & _). exact (in_shown _ _ _ _ F X).
  - apply in_map_iff in X. destruct X as (t' & E & X). injection E as _ <-. destruct (diel_surface_panels n d square G SQ true s (DO s Is)) as (ps & F & _). exact (in_shown _ _ _ _ F X).
Qed.
Lemma diel_made ds : Forall2 (diel_read square k_void mats) (diel_labels diel) ds -> made_from (diel_panels u k_void mats) dl ds.
Proof.
  intros F. rewrite Forall_forall in DO. destruct (permuted_by _ _ _ _ (diel_perm dbu dl diel TM C) F) as (qs' & F' & P). apply split_flat in F'. destruct F' as (qss & S & ->).
  exists qss. split; [|now symmetry]. apply (pairwise _ _ _ _ S). intros s o Is R. unfold side_labels in R. match type of R with Forall2 _ (if ?c then _ else _) _ => destruct c end.
  - destruct (diel_reads_split _ _ _ _ _ _ R) as [A B]. destruct (diel_surface_panels n d square G SQ false s (DO s Is)) as (ps & D & E). assert (Q := unique_list _ (shown_unique square) _ _ _ A D).
    exists (fst (materials s)), (snd (materials s)), (diel_side s). split; [left; split; [symmetry; apply surjective_pairing|reflexivity]|]. split; [exact B|]. destruct s; rewrite Q; exact E.
  - destruct (diel_reads_split _ _ _ _ _ _ R) as [A B]. destruct (diel_surface_panels n d square G SQ true s (DO s Is)) as (ps & D & E). assert (Q := unique_list _ (shown_unique square) _ _ _ A D).
    exists (snd (materials s)), (fst (materials s)), (opposite (diel_side s)). split; [right; split; [symmetry; apply surjective_pairing|reflexivity]|]. split; [|destruct s; rewrite Q; exact E].
    change (diel_key s) with (materials s) in B. destruct (materials s) as [a b]. exact B.
Qed.
End Diel.
Lemma entry_names diel out : FG_Model.write_fastcap prefix k_void mats (Some limit) hash diel (cond_data dbu cl) = Some out ->
  forall e, In e out -> file_of (snd e) = FG_Model.g_name (fst e) /\ FG_Model.g_name (fst e) <> (prefix ++ ".lst")%string /\ FG_Model.g_name (fst e) <> "".
Proof.
  intros W e I. apply FG_Props.write_split in W. destruct W as (ds & cs & E & F1 & F2 & N & _). split.
  - rewrite E in I. apply in_app_or in I. destruct I as [I|I].
    + clear - F1 I. induction F1 as [|x y l m (_ & _ & _ & ko & ki & X & _) F IH]; [destruct I|]. destruct I as [<- |I]; [now rewrite X|auto].
    + clear - F2 I. induction F2 as [|x y l m (_ & _ & ko & pl & X & _) F IH]; [destruct I|]. destruct I as [<- |I]; [now rewrite X|auto].
  - apply In_nth_error in I. destruct I as (i & I). destruct (N i e I) as (s & ->). split; [apply numbered_not_list|].
    intros Z. destruct prefix; [|discriminate Z]. cbn [String.append] in Z. destruct (nat_str (S i)) eqn:Y; [exact (nat_str_some _ Y)|discriminate Z].
Qed.
Variables (old new : files).
Hypothesis NO : names_ok prefix hash dl cl.
Hypothesis run : fastercap_input square limit dbu prefix k_void mats hash dl cl old = Some new.
Lemma read_all : exists cs ds, reads new (prefix ++ ".lst") cs ds /\ map name cs = dkeys grouped /\ whole_layout u k_void mats dl cl cs ds.
Proof.
  destruct NO as (NP & NH & ND & NC & NM). unfold fastercap_input in run. destruct (FG_Model.combine_diel (diel_data dbu dl)) as [diel|] eqn:C; [|discriminate].
  match type of run with match ?x with Some _ => _ | None => _ end = _ => destruct x as [out|] eqn:W; [|discriminate] end.
  destruct (write_geos square limit (map fst out) old) as [fs|] eqn:WG; [|discriminate]. destruct (can_open limit (prefix ++ ".lst")) eqn:O; [|discriminate]. injection run as run'.
  assert (EN := entry_names diel out W). assert (DN := FG_Props.C35_distinct_names _ _ _ _ _ _ _ _ W). unfold FG_Model.write_fastcap in W.
  match type of W with match ?x with Some _ => _ | None => _ end = _ => destruct x as [a|] eqn:Wa; [|discriminate] end.
  match type of W with match ?x with Some _ => _ | None => _ end = _ => destruct x as [b|] eqn:Wb; [|discriminate] end. injection W as <-.
  destruct (written_geos _ _ _ _ _ WG) as [_ WR]. rewrite map_map in WR. specialize (WR DN).
  assert (PR : forall e, In e (a ++ b) -> present square new e).
  { intros e I. destruct (WR (fst e) (in_map fst _ _ I)) as (text & T & D). exists text. split; [exact T|]. rewrite <- run', dget_dset_other; [exact D|]. apply (EN e I). }
  destruct (diels_read square prefix k_void mats new diel 0 a Wa) as (ds & DR & DL).
  { intros e I. apply PR, in_or_app. now left. }
  { intros k ts I. apply all_shown. intros t J. exact (diel_shown_tri diel C k ts t I J). }
  assert (NN : forall nn, In nn (dkeys grouped) -> nn <> "" /\ nb nn = true).
  { intros nn I. apply group_nets in I. destruct I as (s & g & I & <- & _). split; [now apply NC|]. now apply unbroken_chars, NC. }
  destruct (nets_read square prefix k_void mats limit hash new grouped _ _ b Wb) as (cs & CR & CF & CN).
  { intros e I. apply PR, in_or_app. now right. }
  { intros nn l I. split; [exact (NN nn (in_map fst _ _ I))|]. split; [exact (proj1 (proj2 (FG_Proofs.group_spec (cond_data dbu cl))) nn l I)|]. intros o ts J.
    split; [exact (group_nonempty nn l o ts I J)|]. apply all_shown. intros t K. destruct (group_surface nn l o ts t I J K) as (s & A & _ & _ & B). exact (cond_shown s t A B). }
  exists cs, ds. split; [|split; [exact (named_keys _ _ _ CF)|split; [|split; [|split; [|split]]]]].
  - exists (list_text k_void (map snd (a ++ b))). split; [rewrite <- run'; apply dget_dset_same|].
    rewrite list_text_rows.
    + constructor. rewrite map_app, map_app, !map_map. rewrite <- (app_nil_r ds). apply DL. exact CR.
    + apply Forall_forall. intros x I. apply in_map_iff in I. destruct I as (e & <- & I). rewrite (proj1 (EN e I)). split.
      * apply (EN e I).
      * apply in_app_or in I. destruct I as [I|I].
        -- refine (diel_names prefix k_void mats (unbroken_chars _ NP) diel 0 a Wa _ e I). intros k m Ik M. destruct (diel_keys diel C k Ik) as (s & Is & <-). exact (unbroken_chars _ (ND s m Is M)).
        -- refine (nets_names prefix k_void mats limit hash (unbroken_chars _ NP) (fun x => unbroken_chars _ (NH x)) grouped _ _ b Wb _ e I). intros nn l J. split; [exact (proj2 (NN nn (in_map fst _ _ J)))|].
           intros o ts m K M. destruct ts as [|t ts]; [now destruct (group_nonempty nn l o [] J K)|]. destruct (group_surface nn l o (t :: ts) t J K (or_introl eq_refl)) as (s & A & _ & B & _).
           apply unbroken_chars. apply (NM s m A). congruence.
  - rewrite (named_keys _ _ _ CF). exact (proj1 (FG_Proofs.group_spec (cond_data dbu cl))).
  - rewrite CN. apply ST_Props.map_nodup; [apply NX_Proofs.nat_str_inj|apply seq_NoDup].
  - intros net. rewrite (named_keys _ _ _ CF). exact (group_nets net).
  - intros c I. destruct (in_pair _ _ _ _ CF I) as ([nn l] & J & N & R). cbn [fst snd] in *. rewrite N. exact (conductor_made nn l _ J R).
  - exact (diel_made diel C ds DR).
Qed.
(** the panels, permittivities and names that FasterCap finds are those of the layout *)
Theorem C104_read : exists cs ds, reads new (prefix ++ ".lst") cs ds /\ whole_layout u k_void mats dl cl cs ds.
Proof. destruct read_all as (cs & ds & R & _ & W). eauto. Qed.
End C104.
(** A list of files has one reading at most. *)
Theorem C104_unique : forall fs lst cs ds cs' ds', reads fs lst cs ds -> reads fs lst cs' ds' -> cs = cs' /\ ds = ds'.
Proof. intros fs lst cs ds cs' ds' (t & D & L) (t' & D' & L'). rewrite D in D'. injection D' as <-. exact (list_rows_unique fs _ _ _ L _ _ L'). Qed.

(** ** the files can be written *)
Lemma fewer {A} (p : A -> bool) l : (List.length (filter p l) <= List.length l)%nat.
Proof. induction l as [|a l IH]; cbn; [lia|]. destruct (p a); cbn; lia. Qed.
Lemma in_split_pair {A B} (R : A -> B -> Prop) l m : Forall2 R l m -> forall a, In a l -> exists b, In b m /\ R a b.
Proof. induction 1 as [|x y l m X F IH]; intros a []; [subst; exists y; split; [now left|exact X]|]. destruct (IH a) as (b & I & Y); [assumption|]. exists b. split; [now right|exact Y]. Qed.
Notation ns := (all_chars (fun c => negb (Ascii.eqb c "/"))).
Lemma slash_chars s : slash_free s -> ns s = true.
Proof.
  induction s as [|c s IH]; intros H; [reflexivity|]. cbn. destruct (Ascii.eqb_spec c "/") as [-> |N]; [destruct (H "" s); reflexivity|]. cbn. apply IH.
  intros a b E. apply (H (String c a) b). cbn. now rewrite E.
Qed.
Lemma chars_slash s : ns s = true -> has_slash s = false.
Proof. induction s as [|c s IH]; intros H; [reflexivity|]. cbn in *. destruct (Ascii.eqb c "/"); [discriminate|]. cbn in *. now apply IH. Qed.
Lemma ns_take k : forall s, ns s = true -> ns (FG_Model.take k s) = true.
Proof. induction k as [|k IH]; intros [|c s] H; try reflexivity. cbn in *. apply andb_prop in H. destruct H as [-> H]. cbn. now apply IH. Qed.
Lemma ns_slice s e : ns s = true -> ns (FG_Model.slice_to s e) = true.
Proof. intros H. unfold FG_Model.slice_to. destruct (e <? 0)%Z; now apply ns_take. Qed.
Lemma ns_show o : (forall m, o = Some m -> slash_free m) -> ns (FG_Model.show o) = true.
Proof. intros H. destruct o as [[|c m]|]; [reflexivity|exact (slash_chars _ (H _ eq_refl))|reflexivity]. Qed.
Lemma ns_nat n : ns (nat_str n) = true.
Proof. apply (all_chars_impl isdigit); [|apply FG_Proofs.nat_str_digits]. intros c D. destruct (Ascii.eqb_spec c "/"); [subst c; discriminate D|reflexivity]. Qed.
Lemma shown_name o : FG_Model.show o = shown_as o. Proof. reflexivity. Qed.
Lemma diel_named prefix k_void mats : forall (d : dict FG_Model.hkey (list TG_Model.tri)) n a, FG_Model.write_diel prefix k_void mats n d = Some a ->
  (List.length a <= List.length d)%nat /\
  forall e, In e a -> exists k m, In k (dkeys d) /\ (m <= n + List.length a)%nat /\
    FG_Model.g_name (fst e) = (prefix ++ nat_str m ++ "_outside=" ++ FG_Model.show (fst k) ++ "_inside=" ++ FG_Model.show (snd k) ++ ".geo")%string.
Proof.
  induction d as [|[k ts] d IH]; intros n a E; cbn [FG_Model.write_diel] in E; [injection E as <-; split; [cbn; lia|intros e []]|].
  destruct ts as [|t ts]; cbn [FG_Model.nonempty] in E.
  - destruct (IH _ _ E) as [L M]. split; [cbn; lia|]. intros e I. destruct (M e I) as (k' & m & A & B). exists k', m. split; [now right|exact B].
  - destruct (FG_Model.k_of k_void mats (fst k)), (FG_Model.k_of k_void mats (snd k)); try discriminate.
    destruct (FG_Model.write_diel prefix k_void mats (S n) d) as [r|] eqn:R; [|discriminate]. injection E as <-. destruct (IH _ _ R) as [L M]. split; [cbn; lia|]. intros e [<- |I].
    + exists k, (S n). split; [now left|]. split; [cbn; lia|reflexivity].
    + destruct (M e I) as (k' & m & A & B & D). exists k', m. split; [now right|]. split; [cbn; lia|exact D].
Qed.
Lemma net_named prefix k_void mats limit hash nn cn : forall (l : list (option string * list TG_Model.tri)) n a, FG_Model.write_net prefix k_void mats (Some limit) hash nn cn n l = Some a ->
  List.length a = List.length l /\
  forall e, In e a -> exists o ts m, In (o, ts) l /\ (m <= n + List.length l)%nat /\ FG_Model.g_name (fst e) = FG_Model.cond_name prefix (Some limit) hash m (FG_Model.show o) nn.
Proof.
  induction l as [|[o ts] l IH]; intros n a E; cbn [FG_Model.write_net] in E; [injection E as <-; split; [reflexivity|intros e []]|].
  destruct (FG_Model.k_of k_void mats o); [|discriminate].
  match type of E with match ?x with Some _ => _ | None => _ end = _ => destruct x as [r|] eqn:R; [|discriminate] end. injection E as <-. destruct (IH _ _ R) as [L M]. split; [cbn; now rewrite L|]. intros e [<- |I].
  - exists o, ts, (S n). split; [now left|]. split; [cbn; lia|reflexivity].
  - destruct (M e I) as (o' & ts' & m & A & B & D). exists o', ts', m. split; [now right|]. split; [cbn; lia|exact D].
Qed.
Lemma nets_named prefix k_void mats limit hash : forall (g : dict string (list (option string * list TG_Model.tri))) cn n b, FG_Model.write_nets prefix k_void mats (Some limit) hash cn n g = Some b ->
  List.length b = List.length (FG_Proofs.flat g) /\
  forall e, In e b -> exists nn l o ts m, In (nn, l) g /\ In (o, ts) l /\ (m <= n + List.length (FG_Proofs.flat g))%nat /\ FG_Model.g_name (fst e) = FG_Model.cond_name prefix (Some limit) hash m (FG_Model.show o) nn.
Proof.
  induction g as [|[nn l] g IH]; intros cn n b E; cbn [FG_Model.write_nets] in E; [injection E as <-; split; [reflexivity|intros e []]|].
  match type of E with match ?x with Some _ => _ | None => _ end = _ => destruct x as [a|] eqn:Ea; [|discriminate] end.
  match type of E with match ?x with Some _ => _ | None => _ end = _ => destruct x as [b'|] eqn:Eb; [|discriminate] end. injection E as <-.
  destruct (net_named _ _ _ _ _ _ _ _ _ _ Ea) as [L M]. destruct (IH _ _ _ Eb) as [L' M'].
  assert (LF : List.length (FG_Proofs.flat ((nn, l) :: g)) = (List.length l + List.length (FG_Proofs.flat g))%nat) by (unfold FG_Proofs.flat; cbn [flat_map fst snd]; now rewrite app_length, map_length).
  rewrite LF, app_length. split; [rewrite L, L'; reflexivity|]. intros e I. apply in_app_or in I. destruct I as [I|I].
  - destruct (M e I) as (o & ts & m & A & B & D). exists nn, l, o, ts, m. split; [now left|]. split; [exact A|]. split; [lia|exact D].
  - destruct (M' e I) as (nn' & l' & o & ts & m & A & B & C & D). exists nn', l', o, ts, m. split; [now right|]. split; [exact B|]. split; [rewrite Nat.add_assoc; exact C|exact D].
Qed.
Lemma appended_keys {K S} `{EqDec K} (key : S -> K) (tris : S -> list TG_Model.tri) (l : list S) :
  let r := fold_left (fun d s => TG_Model.append d (key s) (tris s)) l [] in dwf r /\ (forall k, In k (dkeys r) -> exists s, In s l /\ key s = k) /\ (List.length r <= List.length l)%nat.
Proof.
  cbv zeta. assert (Y : forall l (d0 : dict K (list TG_Model.tri)), dwf d0 -> let r := fold_left (fun d1 s => TG_Model.append d1 (key s) (tris s)) l d0 in
    dwf r /\ (forall k, In k (dkeys r) -> In k (dkeys d0) \/ exists s, In s l /\ key s = k)).
  { clear l. induction l as [|s l IH]; intros d0 W; [split; [exact W|now left]|]. cbn. destruct (IH (TG_Model.append d0 (key s) (tris s))) as [A B]; [now apply dwf_dset|]. split; [exact A|].
    intros k J. destruct (B k J) as [Q|(s' & Q & R)]; [|right; exists s'; split; [now right|exact R]].
    unfold TG_Model.append in Q. apply dkeys_dset_in in Q. destruct Q as [-> |Q]; [right; exists s; split; [now left|reflexivity]|now left]. }
  destruct (Y l [] (NoDup_nil _)) as [A B]. split; [exact A|]. split; [intros k I; destruct (B k I) as [[]|J]; exact J|].
  rewrite <- (map_length fst), <- (map_length key). apply NoDup_incl_length; [exact A|]. intros k I. destruct (B k I) as [[]|(s & J & <-)]. now apply in_map.
Qed.
Lemma geos_can_be_written square limit : forall gs fs, (forall g, In g gs -> can_open limit (FG_Model.g_name g) = true /\ exists ps, Forall2 (shown square) (FG_Model.g_tris g) ps) ->
  exists new, write_geos square limit gs fs = Some new.
Proof.
  induction gs as [|g gs IH]; intros fs H; [now exists fs|]. cbn [write_geos]. destruct (H g (or_introl eq_refl)) as [-> (ps & F)].
  assert (T : exists lines, tri_lines square (FG_Model.g_num g) (FG_Model.g_tris g) = Some lines) by (destruct (lines_rows square (FG_Model.g_num g) "" None _ _ F ltac:(constructor)) as (l & E & _); now exists l).
  destruct T as (lines & T). unfold geo_text. rewrite T. apply IH. intros; apply H; now right.
Qed.
Ltac nss := repeat first [rewrite all_chars_app; apply andb_true_intro; split | match goal with |- all_chars ?p (String ?c ?s) = true => change (all_chars p s = true) end]; try assumption; try apply ns_nat; try reflexivity.
(** The run comes to its end if all materials are declared and the names of the files are not too long and without slashes. *)
Theorem C104_runs : forall n d square limit prefix k_void mats hash dl cl old, grid_ok n d -> squares square -> Forall cond_ok cl -> Forall diel_ok dl -> Forall two_materials dl ->
  all_declared mats dl cl -> no_slashes prefix hash dl cl -> room limit prefix dl cl -> (forall net, String.length (hash net) = 22%nat) ->
  exists new, fastercap_input square limit (lit n d) prefix k_void mats hash dl cl old = Some new.
Proof.
  intros n d square limit prefix k_void mats hash dl cl old G SQ CO DO TM [DD DC] (SP & SH & SD & SN & SM) [RL R] HL. unfold fastercap_input.
  destruct (FG_Proofs.combine_ok _ (TG_Props.diel_wf (lit n d) dl)) as (diel & C & (R1 & R2 & _)). rewrite C.
  destruct (appended_keys diel_key (diel_tris (lit n d)) dl) as (DW & DK & DLen). destruct (appended_keys cond_key (cond_tris (lit n d)) cl) as (CW & CK & CLen).
  destruct (FG_Props.C34_no_key_error prefix k_void mats (Some limit) hash diel (cond_data (lit n d) cl)) as (out & W).
  { intros a b l I m M. destruct (diel_keys n d dl diel C (a, b) (in_map fst _ _ I)) as (s & Is & E). apply (DD s m Is). rewrite E. exact M. }
  { intros nn a l I. destruct (CK (nn, Some a) (in_map fst _ _ I)) as (s & Is & E). apply (DC s a Is). change (net_and_outside s) with (cond_key s). now rewrite E. }
  match goal with |- context [match ?x with Some _ => _ | None => None end] => change x with (FG_Model.write_fastcap prefix k_void mats (Some limit) hash diel (cond_data (lit n d) cl)) end. rewrite W.
  assert (CL : can_open limit (prefix ++ ".lst") = true).
  { unfold can_open. apply andb_true_intro. split; [apply Nat.leb_le; exact RL|]. rewrite chars_slash; [reflexivity|]. assert (X := slash_chars _ SP). nss. }
  rewrite CL. destruct (geos_can_be_written square limit (map fst out) old) as (new & ->); [|eexists; reflexivity].
  unfold FG_Model.write_fastcap in W.
  match type of W with match ?x with Some _ => _ | None => _ end = _ => destruct x as [a|] eqn:Wa; [|discriminate] end.
  match type of W with match ?x with Some _ => _ | None => _ end = _ => destruct x as [b|] eqn:Wb; [|discriminate] end. injection W as <-.
  destruct (diel_named _ _ _ _ _ _ Wa) as [La Na]. destruct (nets_named _ _ _ _ _ _ _ _ _ Wb) as [Lb Nb].
  assert (LA : (List.length a <= List.length dl)%nat).
  { transitivity (List.length diel); [exact La|]. transitivity (List.length (diel_data (lit n d) dl)); [|exact DLen]. rewrite <- (map_length fst diel), <- (map_length fst (diel_data _ _)).
    apply NoDup_incl_length; [exact R1|exact R2]. }
  assert (LB : (List.length (FG_Proofs.flat (FG_Model.group (cond_data (lit n d) cl))) <= List.length cl)%nat).
  { rewrite (Permutation_length (proj2 (proj2 (FG_Proofs.group_spec (cond_data (lit n d) cl))))). transitivity (List.length (cond_data (lit n d) cl)); [|exact CLen]. apply fewer. }
  intros g I. apply in_map_iff in I. destruct I as (e & <- & I). apply in_app_or in I. destruct I as [I|I].
  - destruct (Na e I) as (k & m & Ik & Lm & E). destruct (diel_keys n d dl diel C k Ik) as (s & Is & Es). split.
    + rewrite E. unfold can_open. apply andb_true_intro. split.
      * apply Nat.leb_le. destruct (R m ltac:(lia)) as [X _]. specialize (X s Is). rewrite Es in X. exact X.
      * rewrite chars_slash; [reflexivity|]. assert (X := slash_chars _ SP).
        assert (A : ns (FG_Model.show (fst k)) = true) by (apply ns_show; intros q Q; apply (SD s q Is); rewrite Es; tauto).
        assert (B : ns (FG_Model.show (snd k)) = true) by (apply ns_show; intros q Q; apply (SD s q Is); rewrite Es; tauto). nss.
    + destruct (FG_Proofs.write_diel_spec _ _ _ _ _ _ Wa) as [F _].
      assert (Z : exists k ts, In (k, ts) diel /\ FG_Model.g_tris (fst e) = ts).
      { clear - F I. destruct (in_split_pair _ _ _ F e I) as ([k' ts'] & J & (T & _)). apply filter_In in J. exists k', ts'. split; [apply J|exact T]. }
      destruct Z as (k' & ts & J & ->). apply all_shown. intros t K. exact (diel_shown_tri n d square dl G SQ DO TM diel C k' ts t J K).
  - destruct (Nb e I) as (nn & l & o & ts & m & J & K & Lm & E). split.
    + destruct ts as [|t ts]; [now destruct (group_nonempty n d cl nn l o [] J K)|]. destruct (group_surface n d cl nn l o (t :: ts) t J K (or_introl eq_refl)) as (s & A & B & D & _).
      rewrite E. unfold can_open. apply andb_true_intro. split.
      * apply Nat.leb_le. apply FG_Props.C35_fits. rewrite HL. destruct (R m ltac:(lia)) as [_ X]. specialize (X s A). rewrite D in X. rewrite !FG_Props.slen_app in *. cbn in *. rewrite !FG_Props.slen_app in *. cbn in *. change (FG_Model.show o) with (shown_as o). lia.
      * rewrite chars_slash; [reflexivity|]. assert (X := slash_chars _ SP). assert (Q : ns (FG_Model.show o) = true) by (apply ns_show; intros q Q; apply (SM s q A); congruence).
        assert (Y : ns nn = true) by (apply slash_chars; rewrite <- B; now apply SN). assert (Z := slash_chars _ (SH nn)).
        unfold FG_Model.cond_name. destruct (Nat.ltb _ _); nss. now apply ns_slice.
    + destruct (FG_Proofs.group_spec (cond_data (lit n d) cl)) as (W1 & W2 & _). destruct (FG_Proofs.write_nets_spec _ _ _ _ _ _ _ _ _ W1 W2 Wb) as [F _].
      assert (Z : exists nn l o ts, In (nn, l) (FG_Model.group (cond_data (lit n d) cl)) /\ In (o, ts) l /\ FG_Model.g_tris (fst e) = ts).
      { clear - F I. destruct (in_split_pair _ _ _ F e I) as (q & J & (T & _)). unfold FG_Proofs.flat in J. apply in_flat_map in J. destruct J as ([nn l] & J & K). apply in_map_iff in K. destruct K as ([o ts] & <- & K).
        exists nn, l, o, ts. now repeat split. }
      destruct Z as (nn' & l' & o' & ts' & J' & K' & ->). apply all_shown. intros t T. destruct (group_surface n d cl nn' l' o' ts' t J' K' T) as (s & A & _ & _ & B). exact (cond_shown n d square cl G SQ CO s t A B).
Qed.
(** Files whose names do not start with the prefix stay as they are. *)
Theorem C104_others_untouched : forall square limit dbu prefix k_void mats hash dl cl old new name, (forall s, name <> (prefix ++ s)%string) ->
  fastercap_input square limit dbu prefix k_void mats hash dl cl old = Some new -> dget new name = dget old name.
Proof.
  intros square limit dbu prefix k_void mats hash dl cl old new name N run. unfold fastercap_input in run. destruct (FG_Model.combine_diel (diel_data dbu dl)) as [diel|]; [|discriminate].
  match type of run with match ?x with Some _ => _ | None => _ end = _ => destruct x as [out|] eqn:W; [|discriminate] end.
  destruct (write_geos square limit (map fst out) old) as [fs|] eqn:WG; [|discriminate]. destruct (can_open limit (prefix ++ ".lst")); [|discriminate]. injection run as <-.
  rewrite dget_dset_other by apply N. apply (proj1 (written_geos _ _ _ _ _ WG)). intros I. rewrite map_map in I. apply in_map_iff in I. destruct I as (e & E & I).
  apply FG_Props.write_split in W. destruct W as (_ & _ & _ & _ & _ & Q & _). apply In_nth_error in I. destruct I as (i & I). destruct (Q i e I) as (s & X). apply (N (nat_str (S i) ++ "_" ++ s)%string). congruence.
Qed.

(** * Examples *)
Definition ex_mats : dict string Qc := [("ox", Q2Qc (39 # 10)); ("nit", Q2Qc (7 # 1))].
Definition ex_hash (n : string) : string := "abcdefghijklmnopqrstuv".
Definition ex_run (square : float -> float) (net : string) : files -> option files :=
  fastercap_input square 255 (lit 1 1000) "FC_" (Q2Qc 1) ex_mats ex_hash ST_Props.ox_surfaces (ST_Props.net_surfaces net).
Definition chars_free (p : ascii -> bool) (s : string) : bool := all_chars (fun c => negb (p c)) s.
Lemma unbroken_free s : chars_free blank s = true -> unbroken s.
Proof. intros H a c b ->. unfold chars_free in H. rewrite all_chars_app in H. apply andb_prop in H. destruct H as [_ H]. cbn in H. apply andb_prop in H. now destruct (blank c). Qed.
Lemma slash_free_free s : chars_free (fun c => Ascii.eqb c "/") s = true -> slash_free s.
Proof. intros H a b ->. unfold chars_free in H. rewrite all_chars_app in H. apply andb_prop in H. destruct H as [_ H]. discriminate H. Qed.
Lemma ex_materials s m : In s ST_Props.ox_surfaces -> fst (materials s) = Some m \/ snd (materials s) = Some m -> m = "ox" \/ m = "nit".
Proof. intros [<- |[<- |[]]] [H|H]; try discriminate H; injection H as <-; auto. Qed.
Lemma ex_outside net s : In s (ST_Props.net_surfaces net) -> net_and_outside s = (net, Some "ox").
Proof. now intros [<- |[<- |[<- |[]]]]. Qed.
Example ex_declared net : all_declared ex_mats ST_Props.ox_surfaces (ST_Props.net_surfaces net).
Proof.
  split; [intros s m I M; destruct (ex_materials s m I M) as [-> | ->]; cbn; tauto|]. intros s m I M. rewrite (ex_outside net s I) in M. injection M as <-. cbn. tauto.
Qed.
Example ex_names_ok net : net <> "" -> chars_free blank net = true -> names_ok "FC_" ex_hash ST_Props.ox_surfaces (ST_Props.net_surfaces net).
Proof.
  intros N U. split; [now apply unbroken_free|]. split; [intros x; now apply unbroken_free|]. split; [intros s m I M; destruct (ex_materials s m I M) as [-> | ->]; now apply unbroken_free|].
  split; intros s.
  - intros I. unfold net_of. rewrite (ex_outside net s I). split; [exact N|now apply unbroken_free].
  - intros m I M. rewrite (ex_outside net s I) in M. injection M as <-. now apply unbroken_free.
Qed.
Example ex_no_slashes net : chars_free (fun c => Ascii.eqb c "/") net = true -> no_slashes "FC_" ex_hash ST_Props.ox_surfaces (ST_Props.net_surfaces net).
Proof.
  intros U. split; [now apply slash_free_free|]. split; [intros x; now apply slash_free_free|]. split; [intros s m I M; destruct (ex_materials s m I M) as [-> | ->]; now apply slash_free_free|].
  split; intros s.
  - intros I. unfold net_of. rewrite (ex_outside net s I). now apply slash_free_free.
  - intros m I M. rewrite (ex_outside net s I) in M. injection M as <-. now apply slash_free_free.
Qed.
Example ex_room net : room 255 "FC_" ST_Props.ox_surfaces (ST_Props.net_surfaces net).
Proof.
  split; [apply Nat.leb_le; reflexivity|]. intros k K. cbn in K. destruct k as [|[|[|[|[|[|k]]]]]]; [..|lia];
    (split; [intros s [<- |[<- |[]]]; apply Nat.leb_le; reflexivity|intros s I; rewrite (ex_outside net s I); apply Nat.leb_le; reflexivity]).
Qed.
(** the hypotheses of C104_runs and C104_read hold for a net in an oxide on a nitride, with any function for squares *)
Example ex_reads square : squares square -> forall net old, net <> "" -> chars_free blank net = true -> chars_free (fun c => Ascii.eqb c "/") net = true ->
  exists new cs ds, ex_run square net old = Some new /\ reads new "FC_.lst" cs ds /\ whole_layout (IZR 1 / IZR 1000) (Q2Qc 1) ex_mats ST_Props.ox_surfaces (ST_Props.net_surfaces net) cs ds /\ map name cs = [net].
Proof.
  intros SQ net old N U S. destruct ST_Props.ex_diel as [DO TM].
  destruct (C104_runs 1 1000 square 255 "FC_" (Q2Qc 1) ex_mats ex_hash ST_Props.ox_surfaces (ST_Props.net_surfaces net) old ST_Props.ex_grid SQ (ST_Props.ex_cond net) DO TM (ex_declared net) (ex_no_slashes net S) (ex_room net) ltac:(reflexivity)) as (new & R).
  destruct (C104_read 1 1000 square 255 "FC_" (Q2Qc 1) ex_mats ex_hash ST_Props.ox_surfaces (ST_Props.net_surfaces net) ST_Props.ex_grid SQ (ST_Props.ex_cond net) DO TM old new (ex_names_ok net N U) R) as (cs & ds & A & B).
  exists new, cs, ds. split; [exact R|]. split; [exact A|]. split; [exact B|]. destruct B as (ND & _ & B & _).
  assert (X : forall n, In n (map name cs) <-> n = net).
  { intros n. rewrite B. split; [intros (s & g & I & E & _); unfold net_of in E; rewrite (ex_outside net s I) in E; now symmetry|intros ->]. exists (HCondIn net (Some "ox") (lit 1 2) [ST_Props.corner_tri]), ST_Props.corner_tri.
    split; [now left|]. split; [reflexivity|now left]. }
  destruct (map name cs) as [|a [|b l]].
  - exfalso. now apply (X net).
  - f_equal. apply X. now left.
  - exfalso. assert (a = net) by (apply X; now left). assert (b = net) by (apply X; right; now left). subst. inversion ND as [|? ? Q]. apply Q. now left.
Qed.
(** Not every name of a net can be used: a blank in it splits the name of the file in the list, and FasterCap cannot read the list any more. *)
Definition list_of (net : string) : string :=
  match FG_Model.write_fastcap "FC_" (Q2Qc 1) ex_mats (Some 255%nat) ex_hash [] (cond_data (lit 1 1000) (ST_Props.net_surfaces net)) with
  | Some out => list_text (Q2Qc 1) (map snd out)
  | None => ""
  end.
Example ex_list : list_of "A" = ("* k_void=1" ++ nl ++ "C FC_1_outside=ox_net=A.geo  3.9  0 0 0" ++ nl)%string.
Proof. vm_compute. reflexivity. Qed.
Theorem C104_blank_refuted : exists n d prefix k_void mats hash cl, grid_ok n d /\ Forall cond_ok cl /\ all_declared mats [] cl /\ no_slashes prefix hash [] cl /\ room 255 prefix [] cl /\
  forall square, squares square -> forall old, exists new, fastercap_input square 255 (lit n d) prefix k_void mats hash [] cl old = Some new /\ forall cs ds, ~ reads new (prefix ++ ".lst") cs ds.
Proof.
  exists 1%Z, 1000%Z, "FC_", (Q2Qc 1), ex_mats, ex_hash, (ST_Props.net_surfaces "A B"). split; [exact ST_Props.ex_grid|]. split; [apply ST_Props.ex_cond|].
  assert (AD : all_declared ex_mats [] (ST_Props.net_surfaces "A B")) by (split; [intros s m []|exact (proj2 (ex_declared "A B"))]). split; [exact AD|].
  assert (NS : no_slashes "FC_" ex_hash [] (ST_Props.net_surfaces "A B")).
  { destruct (ex_no_slashes "A B" eq_refl) as (S1 & S2 & S3 & S4 & S5). split; [exact S1|]. split; [exact S2|]. split; [intros s m []|]. split; [exact S4|exact S5]. }
  split; [exact NS|].
  assert (RO : room 255 "FC_" [] (ST_Props.net_surfaces "A B")).
  { destruct (ex_room "A B") as [R1 R2]. split; [exact R1|]. intros k K. split; [intros s []|]. apply (R2 k). cbn in *. lia. }
  split; [exact RO|]. intros square SQ old.
  destruct (C104_runs 1 1000 square 255 "FC_" (Q2Qc 1) ex_mats ex_hash [] (ST_Props.net_surfaces "A B") old ST_Props.ex_grid SQ (ST_Props.ex_cond "A B") (Forall_nil _) (Forall_nil _) AD NS RO ltac:(reflexivity)) as (new & R).
  exists new. split; [exact R|]. intros cs ds (text & D & L).
  assert (T : text = list_of "A B").
  { unfold fastercap_input in R. change (FG_Model.combine_diel (diel_data (lit 1 1000) [])) with (Some (@nil (FG_Model.hkey * list TG_Model.tri))) in R. cbv iota in R. unfold list_of.
    match type of R with match ?x with Some _ => _ | None => _ end = _ => destruct x as [out|] eqn:W; [|discriminate] end.
    match goal with |- _ = match ?y with Some _ => _ | None => _ end => replace y with (Some out) by (symmetry; exact W) end.
    destruct (write_geos square 255 (map fst out) old); [|discriminate]. destruct (can_open 255 ("FC_" ++ ".lst")); [|discriminate]. injection R as <-.
    rewrite dget_dset_same in D. injection D as <-. reflexivity. }
  assert (TR : rows (list_of "A B") = [["*"; "k_void=1"]; ["C"; "FC_1_outside=ox_net=A"; "B.geo"; "3.9"; "0"; "0"; "0"]]) by (vm_compute; reflexivity).
  rewrite T, TR in L. clear - L.
  assert (K : forall num g qs nm rest r1 r, conductor_rows new num g qs nm -> g ++ rest = r1 :: r -> (exists fn k, r1 = ["C"; fn; k; "0"; "0"; "0"]) \/ (exists fn k, r1 = ["C"; fn; k; "0"; "0"; "0"; "+"])).
  { intros num g qs nm rest r1 r C E. destruct C; injection E as <- _; [left|right]; eexists; eexists; reflexivity. }
  inversion L as [|? ? ? ? ? L'| |? ? ? ? ? ? ? C L' E]; subst.
  - inversion L' as [| | |? ? ? ? ? ? ? C L'' E]; subst. destruct (K _ _ _ _ _ _ _ C E) as [(fn & k & X)|(fn & k & X)]; discriminate X.
  - destruct (K _ _ _ _ _ _ _ C E) as [(fn & k & X)|(fn & k & X)]; discriminate X.
Qed.
(** With a slash in the name of a net nothing can be extracted. *)
Theorem C104_slash_refuted : exists n d prefix k_void mats hash cl, grid_ok n d /\ Forall cond_ok cl /\ all_declared mats [] cl /\ names_ok prefix hash [] cl /\ room 255 prefix [] cl /\
  forall square old, fastercap_input square 255 (lit n d) prefix k_void mats hash [] cl old = None.
Proof.
  exists 1%Z, 1000%Z, "FC_", (Q2Qc 1), ex_mats, ex_hash, (ST_Props.net_surfaces "A/B"). split; [exact ST_Props.ex_grid|]. split; [apply ST_Props.ex_cond|].
  split; [split; [intros s m []|exact (proj2 (ex_declared "A/B"))]|].
  split; [destruct (ex_names_ok "A/B" ltac:(discriminate) eq_refl) as (S1 & S2 & S3 & S4 & S5); split; [exact S1|]; split; [exact S2|]; split; [intros s m []|]; split; [exact S4|exact S5]|].
  split; [destruct (ex_room "A/B") as [R1 R2]; split; [exact R1|]; intros k K; split; [intros s []|]; apply (R2 k); cbn in *; lia|].
  intros square old. unfold fastercap_input. change (FG_Model.combine_diel (diel_data (lit 1 1000) [])) with (Some (@nil (FG_Model.hkey * list TG_Model.tri))). cbv iota.
  match goal with |- match ?x with Some _ => _ | None => _ end = _ => destruct x as [out|] eqn:W; [|reflexivity] end.
  assert (X : match out with e :: _ => FG_Model.g_name (fst e) = "FC_1_outside=ox_net=A/B.geo" | [] => False end).
  { assert (Y : option_map (map (fun e => FG_Model.g_name (fst e))) (FG_Model.write_fastcap "FC_" (Q2Qc 1) ex_mats (Some 255%nat) ex_hash [] (cond_data (lit 1 1000) (ST_Props.net_surfaces "A/B"))) = Some ["FC_1_outside=ox_net=A/B.geo"]) by (vm_compute; reflexivity).
    assert (Y' := eq_trans (eq_sym (f_equal (option_map (map (fun e => FG_Model.g_name (fst e)))) W)) Y). clear Y. rename Y' into Y. destruct out as [|e out]; [discriminate Y|]. cbn in Y. now injection Y. }
  destruct out as [|e out]; [destruct X|]. cbn [map write_geos]. rewrite X. reflexivity.
Qed.
(** one file, with the usual function for squares *)
Example ex_geo : geo_text TG_Props.product (FG_Model.Geo "x.geo" (cond_tris (lit 1 1000) (HCondIn "A" (Some "ox") (lit 1 2) [ST_Props.corner_tri])) 3 (Some "A") true) =
  Some ("0 GEO File" ++ nl ++ "T 3 0 0 0.5 0 1 0.5 1 0 0.5 0 0 -0.5" ++ nl ++ "N 3 A" ++ nl)%string.
Proof. vm_compute. reflexivity. Qed.
Print Assumptions C104_unique.
Print Assumptions C104_read.
Print Assumptions C104_runs.
Print Assumptions C104_others_untouched.
Print Assumptions C104_blank_refuted.
Print Assumptions C104_slash_refuted.
