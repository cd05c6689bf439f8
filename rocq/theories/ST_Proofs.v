(** Proofs about STL files: reading the text, the facets of a surface, and the surfaces of a body. *)
From Coq Require Import ZArith Reals Lra Lia Psatz String Ascii List Permutation.
From Flocq Require Import Core.Core IEEE754.BinarySingleNaN.
From Verif Require Import PyBase PyLib PyStr FP_Model FP_Spec FP_Proofs NF_Model NF_Spec NF_Proofs NF_Text NF_Round NF_Props TG_Model TG_Spec TG_Proofs ST_Model ST_Spec.
From Verif Require FG_Model FG_Proofs TG_Props.
Import ListNotations.
Local Close Scope Qc_scope.
Local Open Scope string_scope.
Local Open Scope list_scope.
Local Open Scope R_scope.

(** ** words *)
Lemma app_assoc_s a b c : ((a ++ b) ++ c = a ++ b ++ c)%string.
Proof. induction a as [|x a IH]; [reflexivity|]. cbn. now rewrite IH. Qed.
Lemma app_nil_s a : (a ++ "" = a)%string.
Proof. induction a as [|x a IH]; [reflexivity|]. cbn. now rewrite IH. Qed.
Definition solid_word (a : string) : Prop := a <> "" /\ all_chars (fun c => negb (blank c)) a = true.
Lemma words_run a : forall w t, all_chars (fun c => negb (blank c)) a = true -> words_from w (a ++ t) = words_from (w ++ a) t.
Proof.
  induction a as [|c a IH]; intros w t H; [now rewrite app_nil_s|]. cbn in H. apply andb_prop in H. destruct H as [H1 H2].
  cbn [String.append words_from]. destruct (blank c); [discriminate|]. rewrite (IH _ _ H2). now rewrite app_assoc_s.
Qed.
Lemma words_word a c t : solid_word a -> blank c = true -> words (a ++ String c t) = a :: words t.
Proof.
  intros [N H] B. unfold words. rewrite (words_run _ _ _ H). cbn [String.append words_from]. rewrite B. unfold ended. destruct (String.eqb_spec a ""); [contradiction|reflexivity].
Qed.
Lemma words_eq a x c t : x = (a ++ String c t)%string -> solid_word a -> blank c = true -> words x = a :: words t.
Proof. intros ->. apply words_word. Qed.
Lemma words_blank c t : blank c = true -> words (String c t) = words t.
Proof. intros B. unfold words. cbn [words_from]. now rewrite B. Qed.
Ltac skip := rewrite words_blank by reflexivity.
Ltac word s := match goal with |- context [words (String ?c ?r)] => rewrite (words_eq s (String c r) _ _ eq_refl) by (first [reflexivity | (split; [discriminate|reflexivity])]) end.
Lemma number_word s x : decimal s x -> solid_word s.
Proof.
  intros H. assert (C := decimal_chars s x H). destruct C as [C N]. split; [exact N|]. revert C. apply all_chars_impl. intros c D.
  unfold blank. unfold number_char, isdigit in D.
  destruct (Ascii.eqb_spec c " "); [subst c; discriminate D|]. destruct (Ascii.eqb_spec c (ascii_of_nat 9)); [subst c; discriminate D|].
  destruct (Ascii.eqb_spec c (ascii_of_nat 10)); [subst c; discriminate D|]. destruct (Ascii.eqb_spec c (ascii_of_nat 13)); [subst c; discriminate D|]. reflexivity.
Qed.

(** ** corners and facets of the text *)
Definition shows_point (p : point) (c : corner) : Prop :=
  let '(x, y, z) := c in decimal (f_text (px p)) x /\ decimal (f_text (py p)) y /\ decimal (f_text (pz p)) z.
Definition shows (t : TG_Model.tri) (f : facet) : Prop :=
  let '(a, b, c) := t in let '(p, q, r) := f in shows_point a p /\ shows_point b q /\ shows_point c r.
Lemma corner_words p c t : shows_point p c -> exists v, words (write_corner p ++ t) = v ++ words t /\ vertex v c.
Proof.
  destruct c as [[x y] z]. intros (X & Y & Z). exists ["vertex"; f_text (px p); f_text (py p); f_text (pz p)]. split; [|now constructor].
  unfold write_corner, to_fastcap, nl. rewrite !app_assoc_s. cbn [String.append].
  do 3 skip. word "vertex".
  rewrite (words_word _ " " _ (number_word _ _ X)) by reflexivity. rewrite (words_word _ " " _ (number_word _ _ Y)) by reflexivity.
  rewrite (words_word _ _ _ (number_word _ _ Z)) by reflexivity. reflexivity.
Qed.
Lemma zero_word : decimal "0" 0.
Proof.
  exists "0", "", 0, 0%Z. split; [|split].
  - left. exists 0%Z. split; [|reflexivity]. split; [discriminate|]. split; reflexivity.
  - left. split; reflexivity.
  - left. split; [reflexivity|]. cbn. ring.
Qed.
Lemma facets_words : forall ts fs, Forall2 (fun t f => shows (reversed t) f) ts fs -> facets "stl" (words (write_facets ts ++ "endsolid stl" ++ nl)) fs.
Proof.
  induction 1 as [|t f ts fs S F IH]; [apply NoMore|]. cbn [write_facets]. rewrite app_assoc_s.
  set (rest := (write_facets ts ++ "endsolid stl" ++ nl)%string) in *. unfold write_facet. destruct (reversed t) as [[p0 p1] p2]. destruct f as [[p q] r]. destruct S as (A & B & C).
  rewrite !app_assoc_s.
  destruct (corner_words p2 r ("  endloop" ++ nl ++ " endfacet" ++ nl ++ rest) C) as (c & Ec & Vc).
  destruct (corner_words p1 q (write_corner p2 ++ "  endloop" ++ nl ++ " endfacet" ++ nl ++ rest) B) as (b & Eb & Vb).
  destruct (corner_words p0 p (write_corner p1 ++ write_corner p2 ++ "  endloop" ++ nl ++ " endfacet" ++ nl ++ rest) A) as (a & Ea & Va).
  match goal with |- facets _ (words (_ ++ _ ++ _ ++ _ ++ ?s)) _ => remember s as tail end. change nl with (String (ascii_of_nat 10) ""). cbn [String.append]. subst tail.
  do 2 skip. word "facet". word "normal". word "0". word "0". word "0". do 4 skip. word "outer". word "loop".
  rewrite Ea, Eb, Ec. change nl with (String (ascii_of_nat 10) ""). cbn [String.append]. do 2 skip. word "endloop". skip. word "endfacet".
  change (facets "stl" (["facet"; "normal"; "0"; "0"; "0"; "outer"; "loop"] ++ a ++ b ++ c ++ ["endloop"; "endfacet"] ++ words rest) ((p, q, r) :: fs)).
  eapply Facet; eauto using zero_word.
Qed.
Lemma stl_reads ts fs : Forall2 (fun t f => shows (reversed t) f) ts fs -> stl (stl_text ts) fs.
Proof.
  intros F. exists "stl", (words (write_facets ts ++ "endsolid stl" ++ nl)). split; [|now apply facets_words].
  unfold stl_text. remember (write_facets ts ++ "endsolid stl" ++ nl)%string as tail. change nl with (String (ascii_of_nat 10) ""). cbn [String.append]. word "solid". word "stl". reflexivity.
Qed.
(** a text has one reading *)
Lemma vertex_len a p : vertex a p -> List.length a = 4%nat. Proof. now intros []. Qed.
Lemma vertex_unique a p q : vertex a p -> vertex a q -> p = q.
Proof. intros H. inversion H as [a1 b1 c1 x y z X Y Z E1 E2]; subst. intros H'. inversion H'; subst. f_equal; [f_equal|]; eapply decimal_unique; eassumption. Qed.
Lemma app_len_inv {A} : forall (a b c d : list A), List.length a = List.length b -> a ++ c = b ++ d -> a = b /\ c = d.
Proof. induction a as [|x a IH]; intros [|y b] c d L E; try discriminate; [now split|]. cbn in *. injection E as -> E. injection L as L. destruct (IH b c d L E) as [-> ->]. now split. Qed.
Lemma facets_unique name l fs : facets name l fs -> forall gs, facets name l gs -> fs = gs.
Proof.
  induction 1 as [|nx ny nz X Y Z a b c p q r rest fs NX NY NZ A B C F IH]; intros gs G.
  - remember ["endsolid"; name] as L eqn:E. destruct G; [reflexivity|discriminate E].
  - match type of G with facets _ ?x _ => remember x as L eqn:E end. destruct G as [|nx' ny' nz' X' Y' Z' a' b' c' p' q' r' rest' fs' NX' NY' NZ' A' B' C' F']; [discriminate E|]. cbn in E. injection E as E1 E2 E3 E.
    apply app_len_inv in E; [|now rewrite (vertex_len _ _ A'), (vertex_len _ _ A)]. destruct E as [Ea E].
    apply app_len_inv in E; [|now rewrite (vertex_len _ _ B'), (vertex_len _ _ B)]. destruct E as [Eb E].
    apply app_len_inv in E; [|now rewrite (vertex_len _ _ C'), (vertex_len _ _ C)]. destruct E as [Ec E]. injection E as E. subst a' b' c' rest'.
    rewrite (vertex_unique _ _ _ A A'), (vertex_unique _ _ _ B B'), (vertex_unique _ _ _ C C'), (IH _ F'). reflexivity.
Qed.
Lemma stl_unique text fs gs : stl text fs -> stl text gs -> fs = gs.
Proof. intros (n & r & E & F) (n' & r' & E' & G). rewrite E in E'. injection E' as -> ->. eapply facets_unique; eassumption. Qed.

(** ** the facets of a surface *)
Section Surface.
Variables n d : Z.
Hypothesis G : grid_ok n d.
Notation dbu := (lit n d).
Notation u := (IZR n / IZR d).
Lemma u_pos : 0 < u.
Proof. destruct G as (N & (A & B & C) & _). apply Rdiv_lt_0_compat; apply IZR_lt; lia. Qed.
Lemma coord_shown X k : near_origin k -> coord dbu X k -> decimal (f_text X) (IZR k * u).
Proof.
  intros K [F V]. destruct G as (N & S & _ & T). unfold near_origin in *. destruct (grid_close n d k N S ltac:(lia)) as (_ & _ & C).
  apply C96_exact; [exact F|now apply T|]. now rewrite V.
Qed.
Definition turned (f : facet) : facet := let '(p, q, r) := f in (r, q, p).
Lemma shows_back t f : shows t f -> shows (reversed t) (turned f).
Proof. destruct t as [[a b] c], f as [[p q] r]. cbn. tauto. Qed.
Definition facet_of (place : grid_point -> corner) (g : grid_tri) : facet := let '(a, b, c) := g in (place a, place b, place c).
Lemma facet_corners place g v : faces_to (facet_of place g) v -> facet_at place v g (facet_of place g).
Proof. destruct g as [[a b] c]. intros H. split; [apply Permutation_refl|exact H]. Qed.
Lemma turned_corners place g v : faces_to (turned (facet_of place g)) v -> facet_at place v g (turned (facet_of place g)).
Proof. destruct g as [[a b] c]. intros H. split; [|exact H]. cbn. change [place c; place b; place a] with (rev [place a; place b; place c]). apply Permutation_sym, Permutation_rev. Qed.
(** turning a facet over turns its direction over *)
Lemma faces_turned f v : faces_to f v -> faces_to (turned f) (opposite v).
Proof.
  destruct f as [[[[p1 p2] p3] [[q1 q2] q3]] [[r1 r2] r3]], v as [[x y] z]. cbn. intros (k & K & E). exists k. split; [exact K|]. injection E as E1 E2 E3.
  f_equal; [f_equal|]; lra.
Qed.
(** horizontal *)
Lemma level_faces z g : clockwise g -> faces_to (facet_of (level u z) g) down.
Proof.
  destruct g as [[[ax ay] [bx b_y]] [cx cy]]. intros C. unfold clockwise in C. cbn. exists (- (IZR ((bx - ax) * (cy - ay) - (b_y - ay) * (cx - ax)) * (u * u))).
  split. { apply IZR_lt in C. assert (U := u_pos). assert (0 < u * u) by (now apply Rmult_lt_0_compat). nra. }
  rewrite minus_IZR, !mult_IZR, !minus_IZR. f_equal; [f_equal|]; ring.
Qed.
Lemma level_shows z z' g : height_ok z -> decimal (f_text z) z' -> tri_near g -> shows (h_tri dbu z g) (facet_of (level u z') g).
Proof.
  intros H Z. destruct g as [[[ax ay] [bx b_y]] [cx cy]]. intros ([A1 A2] & [B1 B2] & [C1 C2]). destruct G as (_ & _ & U & _). cbn [fst snd] in *.
  repeat split; cbn [px py pz h_point fst snd]; try exact Z; (apply coord_shown; [assumption|now apply coord_grid]).
Qed.
Lemma horizontal_shown (over : bool) z ts : height_ok z -> Forall tri_ok ts ->
  exists fs, Forall2 shows (map (fun g => if over then reversed (h_tri dbu z g) else h_tri dbu z g) ts) fs /\ horizontal u z (if over then opposite down else down) ts fs.
Proof.
  intros H T. destruct (C96_near z (proj1 H)) as (z' & Z & _ & C).
  exists (map (fun g => if over then turned (facet_of (level u z') g) else facet_of (level u z') g) ts). split.
  - induction T as [|g ts [K N] T IH]; constructor; [|exact IH]. destruct over; [apply shows_back|]; now apply level_shows.
  - exists z'. split; [exact C|]. unfold surface_at. induction T as [|g ts [K N] T IH]; constructor; [|exact IH].
    destruct over; [apply turned_corners, faces_turned|apply facet_corners]; now apply level_faces.
Qed.
(** vertical *)
Lemma wall_place e q : edge_ok e -> wall u e q = (IZR (at_x e (fst q)) * u, IZR (at_y e (fst q)) * u, IZR (snd q) * u).
Proof.
  intros [A _]. unfold wall, on_wall, at_x, at_y, origin_x, origin_y. destruct A as [[A B]|[A B]].
  - rewrite A. cbn [Z.eqb Z.sgn]. destruct (Z.eqb_spec (dy e) 0); [contradiction|]. cbn [Z.mul]. rewrite Z.add_0_r. reflexivity.
  - rewrite B. cbn [Z.eqb Z.sgn]. destruct (Z.eqb_spec (dx e) 0); [contradiction|]. cbn [Z.mul]. rewrite Z.add_0_r. reflexivity.
Qed.
Lemma wall_faces e g : edge_ok e -> clockwise g -> faces_to (facet_of (wall u e) g) (left e).
Proof.
  intros E. destruct g as [[[ax ay] [bx b_y]] [cx cy]]. intros C. unfold clockwise in C. cbn [facet_of]. rewrite !(wall_place e _ E). cbn [fst snd]. unfold left.
  exists (- (IZR ((bx - ax) * (cy - ay) - (b_y - ay) * (cx - ax)) * (u * u))).
  split. { apply IZR_lt in C. assert (U := u_pos). assert (0 < u * u) by (now apply Rmult_lt_0_compat). nra. }
  unfold minus, ST_Spec.cross. rewrite minus_IZR, !mult_IZR, !minus_IZR.
  destruct (at_cases e E) as [(S0 & S & AX & AY)|(S0 & S & AX & AY)]; rewrite !AX, !AY, S0; cbn [Z.sgn]; rewrite ?mult_IZR; f_equal; [f_equal; ring|ring|f_equal; ring|ring].
Qed.
Lemma wall_shows e g : edge_ok e -> tri_near g -> shows (v_tri dbu (v_plane e) g) (facet_of (wall u e) g).
Proof.
  intros E. destruct g as [[a b] c]. intros (A & B & C). destruct G as (_ & _ & U & _). cbn [facet_of v_tri shows].
  assert (X : forall p, p_near p -> shows_point (convert_point dbu (v_plane e) p) (wall u e p)).
  { intros p P. rewrite (wall_place e p E). destruct (convert_coord dbu e p U E P) as (X & Y & Z). destruct (at_near e (fst p) E (proj1 P)) as [NX NY].
    split; [|split]; (apply coord_shown; [|assumption]); [exact NX|exact NY|exact (proj2 P)]. }
  split; [|split]; now apply X.
Qed.
Lemma wall_shown (over : bool) e ts : edge_ok e -> Forall tri_ok ts ->
  exists fs, Forall2 shows (map (fun g => if over then reversed (v_tri dbu (v_plane e) g) else v_tri dbu (v_plane e) g) ts) fs /\
    surface_at (wall u e) (if over then opposite (left e) else left e) ts fs.
Proof.
  intros E T. exists (map (fun g => if over then turned (facet_of (wall u e) g) else facet_of (wall u e) g) ts). split.
  - induction T as [|g ts [K N] T IH]; constructor; [|exact IH]. destruct over; [apply shows_back|]; now apply wall_shows.
  - unfold surface_at. induction T as [|g ts [K N] T IH]; constructor; [|exact IH].
    destruct over; [apply turned_corners, faces_turned|apply facet_corners]; now apply wall_faces.
Qed.
Lemma reversed2 t : reversed (reversed t) = t. Proof. now destruct t as [[a b] c]. Qed.
Lemma opposite_down : opposite down = up. Proof. unfold opposite, down, up. apply (f_equal2 pair); [apply (f_equal2 pair)|]; ring. Qed.
Lemma opposite_up : opposite up = down. Proof. unfold opposite, down, up. apply (f_equal2 pair); [apply (f_equal2 pair)|]; ring. Qed.
Lemma cond_out s : cond_ok s -> exists fs, Forall2 shows (cond_tris dbu s) fs /\ cond_facets u outwards s fs.
Proof.
  destruct s as [net below z ts|net above z ts|net outside e ts]; intros [H F]; cbn [cond_tris cond_facets cond_side]; unfold outwards.
  - exact (horizontal_shown false z ts H F).
  - destruct (horizontal_shown true z ts H F) as (fs & A & B). exists fs. split; [exact A|]. now rewrite opposite_down in B.
  - exact (wall_shown false e ts H F).
Qed.
Lemma cond_in s : cond_ok s -> exists fs, Forall2 shows (map reversed (cond_tris dbu s)) fs /\ cond_facets u inwards s fs.
Proof.
  destruct s as [net below z ts|net above z ts|net outside e ts]; intros [H F]; cbn [cond_tris cond_facets cond_side]; unfold inwards.
  - destruct (horizontal_shown true z ts H F) as (fs & A & B). exists fs. split; [|exact B]. unfold generate_hcond_in. now rewrite map_map.
  - destruct (horizontal_shown false z ts H F) as (fs & A & B). exists fs. rewrite opposite_up. split; [|exact B]. unfold generate_hcond_out. rewrite map_map.
    erewrite map_ext; [exact A|]. intros g. apply reversed2.
  - destruct (wall_shown true e ts H F) as (fs & A & B). exists fs. split; [|exact B]. unfold triangulate. now rewrite map_map.
Qed.
Lemma diel_shown (over : bool) s : diel_ok s ->
  exists fs, Forall2 shows (if over then map reversed (diel_tris dbu s) else diel_tris dbu s) fs /\
    match s with
    | HDiel _ _ z ts => horizontal u z (if over then opposite (diel_side s) else diel_side s) ts fs
    | VDiel _ _ e ts => surface_at (wall u e) (if over then opposite (diel_side s) else diel_side s) ts fs
    end.
Proof.
  destruct s as [below above z ts|outside inside e ts]; intros [H F]; cbn [diel_tris diel_side].
  - destruct (horizontal_shown over z ts H F) as (fs & A & B). exists fs. split; [|exact B]. unfold generate_hdiel. destruct over; [now rewrite map_map|exact A].
  - destruct (wall_shown over e ts H F) as (fs & A & B). exists fs. split; [|exact B]. unfold triangulate. destruct over; [now rewrite map_map|exact A].
Qed.
End Surface.

(** ** the surfaces of a body *)
Section Gather.
Context {K : Type} {E : EqDec K} (P : K -> list TG_Model.tri -> list TG_Model.tri).
Hypothesis P_app : forall k a b, P k (a ++ b) = P k a ++ P k b.
Lemma gather_append (d : dict K (list TG_Model.tri)) k l :
  Permutation (flat_map (fun e => P (fst e) (snd e)) (TG_Model.append d k l)) (flat_map (fun e => P (fst e) (snd e)) d ++ P k l).
Proof.
  unfold TG_Model.append. induction d as [|[k' v] d IH]; cbn.
  - now rewrite app_nil_r.
  - destruct (eq_dec k k') as [-> |N]; cbn [flat_map fst snd].
    + rewrite P_app. rewrite <- !app_assoc. apply Permutation_app_head, Permutation_app_comm.
    + rewrite <- app_assoc. now apply Permutation_app_head.
Qed.
Lemma gather_all {S} (key : S -> K) (tris : S -> list TG_Model.tri) (l : list S) (d : dict K (list TG_Model.tri)) :
  Permutation (flat_map (fun e => P (fst e) (snd e)) (fold_left (fun d s => TG_Model.append d (key s) (tris s)) l d))
              (flat_map (fun e => P (fst e) (snd e)) d ++ flat_map (fun s => P (key s) (tris s)) l).
Proof.
  revert d. induction l as [|s l IH]; intros d; cbn; [now rewrite app_nil_r|]. rewrite IH. rewrite app_assoc. apply Permutation_app_tail, gather_append.
Qed.
End Gather.
Lemma made {S} (want : S -> bool) (tris : S -> list TG_Model.tri) (shown : S -> list facet -> Prop) (l : list S) :
  (forall s, In s l -> want s = true -> exists fs, Forall2 shows (tris s) fs /\ shown s fs) -> (forall s, want s = false -> tris s = []) ->
  exists fss, Forall2 shown (filter want l) fss /\ Forall2 shows (flat_map tris l) (concat fss).
Proof.
  intros H N. induction l as [|s l IH]; [exists []; split; constructor|]. destruct IH as (fss & A & B); [intros; apply H; [now right|assumption]|].
  cbn. destruct (want s) eqn:W.
  - destruct (H s (or_introl eq_refl) W) as (fs & F & X). exists (fs :: fss). split; [now constructor|]. cbn. now apply Forall2_app.
  - exists fss. split; [exact A|]. now rewrite (N s W).
Qed.
Lemma permuted ts ts' fs : Permutation ts' ts -> Forall2 shows ts fs -> exists fs', Forall2 shows ts' fs' /\ Permutation fs' fs.
Proof.
  intros P. revert fs. induction P as [|t a b P IH|x y l|a b c P1 IH1 P2 IH2]; intros fs F.
  - inversion F; subst. exists []. split; constructor.
  - inversion F as [|? f ? fs0 A B]; subst. destruct (IH _ B) as (fs' & C & D). exists (f :: fs'). split; now constructor.
  - inversion F as [|? f ? fs0 A B]; subst. inversion B as [|? g ? fs1 C D]; subst. exists (g :: f :: fs1). split; [repeat (constructor; try assumption)|apply perm_swap].
  - destruct (IH2 _ F) as (f2 & A & B). destruct (IH1 _ A) as (f1 & C & D). exists f1. split; [exact C|now transitivity f2].
Qed.
