From Coq Require Import String Ascii ZArith QArith Qabs Lia.
From Verif Require Import PyBase PyLib PyStr PyNum ER_Model LV_Model LV_Spec LV_Proofs RP_Model RP_Spec.
From Verif Require NX_Model NX_Proofs FG_Proofs RQ_Model.
Local Open Scope string_scope.
Local Open Scope list_scope.

Section C.
Context {G : Type}.
Variable float_text : Qc -> string.
Notation run := (@run G float_text).
Notation titled := (@titled G float_text).
Notation reported := (@reported G float_text).

Definition title (n : nat) (x : call G) : string :=
  match x with
  | COverlap c _ _ _ => "#" ++ NX_Model.nat_str n ++ " " ++ show_round 3 (ov_value c) ++ " fF"
  | CSidewall c _ _ => "#" ++ NX_Model.nat_str n ++ ": len " ++ float_text (sw_length c) ++ " µm, distance " ++ float_text (sw_distance c)
                       ++ " µm, " ++ show_round 3 (sw_value c) ++ " fF"
  | CFringe c _ _ _ => "#" ++ NX_Model.nat_str n ++ ": " ++ show_round 3 (so_value c) ++ " fF"
  end%string.
Lemma title_ok n x : titled n x (title n x).
Proof. destruct x; eexists; (split; [apply show_round_rounds; discriminate|reflexivity]). Qed.

Definition number (db : rdb G) (p : path) : nat := S (match dget (rd_counter db) p with Some k => k | None => 0%nat end).
Lemma items_cc (db : rdb G) p n : rd_items (create_category db p n) = rd_items db. Proof. reflexivity. Qed.
Lemma counter_cc (db : rdb G) p n : rd_counter (create_category db p n) = rd_counter db. Proof. reflexivity. Qed.
Lemma items_os (db : rdb G) p n l : rd_items (output_shapes db p n l) = rd_items db ++ [(p ++ [n], l)]. Proof. reflexivity. Qed.
Lemma counter_os (db : rdb G) p n l : rd_counter (output_shapes db p n l) = rd_counter db. Proof. reflexivity. Qed.
Lemma bump_eq (db : rdb G) p : bump db p = (Rdb (rd_cats db) (rd_items db) (dset (rd_counter db) p (number db p)), number db p). Proof. reflexivity. Qed.
Lemma number_cc (db : rdb G) p n q : number (create_category db p n) q = number db q. Proof. reflexivity. Qed.
Ltac report := cbv zeta; rewrite bump_eq; cbv beta iota zeta; rewrite ?number_cc.
Ltac report' := repeat (rewrite ?items_os, ?items_cc, ?counter_os, ?counter_cc; cbn [rd_items rd_counter]).
Lemma overlap_db db c b t a : let x := COverlap c b t a in let n := number db (category x) in
  rd_items (output_overlap db c b t a) = rd_items db ++ shown x (category x ++ [title n x]) /\
  rd_counter (output_overlap db c b t a) = dset (rd_counter db) (category x) n.
Proof.
  cbv zeta. unfold output_overlap. cbn [category shown title]. destruct (ov_key c) as [[[lt nt] lb] nb]. report. split; report'; [|reflexivity].
  rewrite <- !app_assoc. reflexivity.
Qed.
Lemma sidewall_db db c i o : let x := CSidewall c i o in let n := number db (category x) in
  rd_items (output_sidewall float_text db c i o) = rd_items db ++ shown x (category x ++ [title n x]) /\
  rd_counter (output_sidewall float_text db c i o) = dset (rd_counter db) (category x) n.
Proof.
  cbv zeta. unfold output_sidewall. cbn [category shown title]. destruct (sw_key c) as [[l n1] n2]. report. split; report'; reflexivity.
Qed.
Lemma fringe_db db c i o l : let x := CFringe c i o l in let n := number db (category x) in
  rd_items (output_sideoverlap db c i o l) = rd_items db ++ shown x (category x ++ [title n x]) /\
  rd_counter (output_sideoverlap db c i o l) = dset (rd_counter db) (category x) n.
Proof.
  cbv zeta. unfold output_sideoverlap. cbn [category shown title]. destruct (so_key c) as [[[li ni] lo] no]. report.
  destruct l as [l|]; (split; report'; [|reflexivity]); rewrite <- !app_assoc; reflexivity.
Qed.
Lemma step_db s x : let n := number (snd s) (category x) in
  rd_items (snd (step float_text s x)) = rd_items (snd s) ++ shown x (category x ++ [title n x]) /\
  rd_counter (snd (step float_text s x)) = dset (rd_counter (snd s)) (category x) n.
Proof. destruct x as [c b t a|c i o|c i o l]; cbn [step snd]; [apply overlap_db|apply sidewall_db|apply fringe_db]. Qed.

Lemma run_snoc xs x : run (xs ++ [x]) = step float_text (run xs) x.
Proof. unfold RP_Model.run. rewrite fold_left_app. reflexivity. Qed.
Lemma in_category_snoc p xs (x : call G) : in_category p (xs ++ [x]) = (in_category p xs + if eqb (category x) p then 1 else 0)%nat.
Proof. unfold in_category. rewrite filter_app, app_length. cbn. destruct (eqb (category x) p); reflexivity. Qed.
Lemma number_run xs p : number (snd (run xs)) p = S (in_category p xs).
Proof.
  revert p. induction xs as [|x xs IH] using rev_ind; intros p; [reflexivity|].
  rewrite run_snoc, in_category_snoc. unfold number. rewrite (proj2 (step_db (run xs) x)), dget_dset.
  rewrite IH. destruct (eq_dec p (category x)) as [E|E].
  - subst p. rewrite eqb_refl. lia.
  - rewrite (proj2 (eqb_false (category x) p)) by congruence. fold (number (snd (run xs)) p). rewrite IH. lia.
Qed.
Lemma items_snoc xs x : rd_items (snd (run (xs ++ [x]))) = rd_items (snd (run xs)) ++ shown x (category x ++ [title (S (in_category (category x) xs)) x]).
Proof. rewrite run_snoc, (proj1 (step_db (run xs) x)), number_run. reflexivity. Qed.
Lemma run_reported xs : reported xs (rd_items (snd (run xs))).
Proof.
  induction xs as [|x xs IH] using rev_ind; [constructor|]. rewrite items_snoc. constructor; [exact IH|apply title_ok].
Qed.

(** ** titles are told apart by their numbers *)
Lemma below_app p q r : List.length p = List.length q -> below p (q ++ r) = eqb p q.
Proof.
  revert q. induction p as [|a p IH]; intros [|b q] L; try discriminate L; [reflexivity|].
  cbn [app below]. rewrite IH by (injection L as ->; reflexivity).
  destruct (eqb a b) eqn:E1; destruct (eqb p q) eqn:E2; cbn [andb]; symmetry.
  - apply eqb_eq in E1, E2. subst. apply eqb_refl.
  - apply eqb_false. apply eqb_false in E2. congruence.
  - apply eqb_false. apply eqb_false in E1. congruence.
  - apply eqb_false. apply eqb_false in E1. congruence.
Qed.
Lemma digits_split a b c d s t : all_chars isdigit a = true -> all_chars isdigit b = true -> isdigit c = false -> isdigit d = false ->
  (a ++ String c s = b ++ String d t)%string -> a = b.
Proof.
  revert b. induction a as [|x a IH]; intros [|y b] A B C D E; cbn [append] in E.
  - reflexivity.
  - injection E as E _. cbn in B. rewrite <- E, C in B. discriminate B.
  - injection E as E _. cbn in A. rewrite E, D in A. discriminate A.
  - injection E as -> E. cbn in A, B. apply andb_prop in A, B. f_equal. apply (IH b); tauto.
Qed.
Lemma title_number n m x y : title n x = title m y -> n = m.
Proof.
  intros E. apply NX_Proofs.nat_str_inj.
  assert (H : exists c s d t, isdigit c = false /\ isdigit d = false /\ (NX_Model.nat_str n ++ String c s = NX_Model.nat_str m ++ String d t)%string).
  { destruct x, y; cbn [title append] in E; injection E as E; do 4 eexists; (split; [|split; [|exact E]]); reflexivity. }
  destruct H as (c & s & d & t & C & D & H). eapply digits_split; [apply FG_Proofs.nat_str_digits|apply FG_Proofs.nat_str_digits|exact C|exact D|exact H].
Qed.
Lemma category_kind (x y : call G) : hd "" (category x) = hd "" (category y) -> List.length (category x) = List.length (category y).
Proof.
  destruct x as [c1 ? ? ?|c1 ? ?|c1 ? ? ?], y as [c2 ? ? ?|c2 ? ?|c2 ? ? ?]; cbn [category];
    try (destruct (ov_key c1) as [[[? ?] ?] ?]); try (destruct (sw_key c1) as [[? ?] ?]); try (destruct (so_key c1) as [[[? ?] ?] ?]);
    try (destruct (ov_key c2) as [[[? ?] ?] ?]); try (destruct (sw_key c2) as [[? ?] ?]); try (destruct (so_key c2) as [[[? ?] ?] ?]);
    cbn [hd List.length]; intros E; try discriminate E; reflexivity.
Qed.
Lemma category_hd (x : call G) : exists a l, category x = a :: l.
Proof. destruct x as [c ? ? ?|c ? ?|c ? ? ?]; cbn [category]; [destruct (ov_key c) as [[[? ?] ?] ?]|destruct (sw_key c) as [[? ?] ?]|destruct (so_key c) as [[[? ?] ?] ?]]; eauto. Qed.
Lemma below_hd a p b q : below (a :: p) (b :: q) = true -> a = b.
Proof. cbn [below]. intros E. apply andb_prop in E. apply eqb_eq, E. Qed.

Lemma shown_ext (x : call G) p i : In i (shown x p) -> exists r, fst i = p ++ r.
Proof.
  destruct x as [c b t a|c e o|c e o l]; cbn [shown].
  - intros [<-|[<-|[<-|[]]]]; eexists; reflexivity.
  - intros [<-|[]]. exists []. symmetry. apply app_nil_r.
  - intros I. apply in_app_iff in I. destruct I as [[<-|[<-|[]]]|I]; [eexists; reflexivity..|].
    destruct l as [l|]; [destruct I as [<-|[]]; eexists; reflexivity|destruct I].
Qed.
(** items of one contribution below the title of another *)
Lemma below_shown x n y m i : In i (shown y (category y ++ [title m y])) ->
  below (category x ++ [title n x]) (fst i) = eqb (category x ++ [title n x]) (category y ++ [title m y]).
Proof.
  intros I. destruct (shown_ext _ _ _ I) as (r & E). rewrite E.
  destruct (eqb (hd "" (category x)) (hd "" (category y))) eqn:H.
  - apply eqb_eq in H. apply below_app. rewrite !app_length, (category_kind _ _ H). reflexivity.
  - apply eqb_false in H. destruct (category_hd x) as (a & l & X), (category_hd y) as (b & k & Y). rewrite X, Y in *. cbn [hd] in H.
    cbn [app]. transitivity false.
    + destruct (below _ _) eqn:B; [|reflexivity]. apply below_hd in B. contradiction.
    + symmetry. apply eqb_false. congruence.
Qed.
Lemma snoc_eq (p q : path) (a b : string) : p ++ [a] = q ++ [b] -> p = q /\ a = b.
Proof. apply app_inj_tail. Qed.

Lemma filter_all {A} (f : A -> bool) l : (forall x, In x l -> f x = true) -> filter f l = l.
Proof. induction l as [|x l IH]; intros H; [reflexivity|]. cbn. rewrite (H x) by (left; reflexivity). f_equal. apply IH. intros y I. apply H. right. exact I. Qed.
Lemma filter_none {A} (f : A -> bool) l : (forall x, In x l -> f x = false) -> filter f l = [].
Proof. induction l as [|x l IH]; intros H; [reflexivity|]. cbn. rewrite (H x) by (left; reflexivity). apply IH. intros y I. apply H. right. exact I. Qed.

Lemma under_other n x xs : (n > in_category (category x) xs)%nat -> under (category x ++ [title n x]) (rd_items (snd (run xs))) = [].
Proof.
  revert n. induction xs as [|y xs IH] using rev_ind; intros n L; [reflexivity|].
  rewrite in_category_snoc in L. rewrite items_snoc. unfold under in *. rewrite filter_app, IH by lia. cbn [app].
  apply filter_none. intros i I. rewrite (below_shown _ _ _ _ _ I). apply eqb_false. intros E. apply snoc_eq in E. destruct E as [E1 E2].
  apply title_number in E2. rewrite E1, eqb_refl in L. lia.
Qed.
Lemma under_own xs1 x xs2 :
  under (category x ++ [title (S (in_category (category x) xs1)) x]) (rd_items (snd (run (xs1 ++ x :: xs2)))) =
  shown x (category x ++ [title (S (in_category (category x) xs1)) x]).
Proof.
  induction xs2 as [|y xs2 IH] using rev_ind.
  - rewrite items_snoc. unfold under. rewrite filter_app. fold (under (category x ++ [title (S (in_category (category x) xs1)) x]) (rd_items (snd (run xs1)))).
    rewrite under_other by lia. cbn [app]. apply filter_all. intros i I. rewrite (below_shown _ _ _ _ _ I). apply eqb_refl.
  - change (xs1 ++ x :: xs2 ++ [y]) with (xs1 ++ (x :: xs2) ++ [y]). rewrite app_assoc, items_snoc. unfold under in *. rewrite filter_app, IH.
    rewrite (filter_none _ (shown y _)); [apply app_nil_r|]. intros i I. rewrite (below_shown _ _ _ _ _ I). apply eqb_false. intros E.
    apply snoc_eq in E. destruct E as [E1 E2]. apply title_number in E2. rewrite <- E1 in E2.
    unfold in_category in E2. rewrite filter_app, app_length in E2. cbn [filter] in E2. rewrite eqb_refl in E2. cbn [List.length] in E2. lia.
Qed.

(** ** the categories and the tables *)
Lemma str_pre (a b c : string) : (a ++ b = a ++ c)%string -> b = c.
Proof. induction a as [|x a IH]; cbn [append]; intros E; [exact E|]. injection E as E. apply IH, E. Qed.
Lemma app_cases (a b c d : string) : (a ++ b = c ++ d)%string -> exists u, (a = c ++ u /\ d = u ++ b)%string \/ (c = a ++ u /\ b = u ++ d)%string.
Proof.
  revert c. induction a as [|x a IH]; intros c E.
  - exists c. right. split; [reflexivity|exact E].
  - destruct c as [|y c].
    + exists (String x a). left. split; [reflexivity|symmetry; exact E].
    + cbn [append] in E. injection E as -> E. destruct (IH _ E) as (u & [[-> ->]|[-> ->]]); exists u; [left|right]; split; reflexivity.
Qed.
Lemma dash_step a u b d : no_dash (a ++ u) -> (" – " ++ b = u ++ " – " ++ d)%string -> u = EmptyString /\ b = d.
Proof.
  intros N E. destruct u as [|c0 u]; [split; [reflexivity|]; cbn [append] in E; injection E as E; exact E|].
  exfalso. cbn [append] in E. injection E as <- E.
  destruct u as [|c1 u]; [discriminate E|]. cbn [append] in E. injection E as <- E.
  destruct u as [|c2 u]; [discriminate E|]. cbn [append] in E. injection E as <- E.
  destruct u as [|c3 u]; [discriminate E|]. cbn [append] in E. injection E as <- E.
  apply (N (a ++ " ")%string u). rewrite str_app_assoc. reflexivity.
Qed.
Lemma dash_inj a b c d : no_dash a -> no_dash c -> (a ++ " – " ++ b = c ++ " – " ++ d)%string -> a = c /\ b = d.
Proof.
  intros A C E. destruct (app_cases _ _ _ _ E) as (u & [[-> H]|[-> H]]).
  - destruct (dash_step _ _ _ _ A H) as [-> ->]. rewrite str_app_nil. split; reflexivity.
  - destruct (dash_step _ _ _ _ C H) as [-> ->]. rewrite str_app_nil. split; reflexivity.
Qed.
Lemma category_key (x y : call G) : plain x -> plain y -> (category x = category y <-> key_of x = key_of y).
Proof.
  intros P Q. destruct x as [c1 b1 t1 a1|c1 i1 o1|c1 i1 o1 l1], y as [c2 b2 t2 a2|c2 i2 o2|c2 i2 o2 l2]; cbn [category key_of plain] in *;
    try (destruct (ov_key c1) as [[[lt1 nt1] lb1] nb1]); try (destruct (sw_key c1) as [[s1 s2] s3]); try (destruct (so_key c1) as [[[f1 f2] f3] f4]);
    try (destruct (ov_key c2) as [[[lt2 nt2] lb2] nb2]); try (destruct (sw_key c2) as [[s4 s5] s6]); try (destruct (so_key c2) as [[[f5 f6] f7] f8]);
    (split; intros E; [|try discriminate E]); try discriminate E.
  - injection E as E1 E2 E3. destruct (dash_inj nt1 nb1 nt2 nb2 (proj1 P) (proj1 Q) E3) as [-> ->]. subst. reflexivity.
  - injection E as -> -> -> ->. reflexivity.
  - injection E as E1 E2 E3. subst. reflexivity.
  - injection E as -> -> ->. reflexivity.
  - injection E as E1 E2 E3 E4. subst. reflexivity.
  - injection E as -> -> -> ->. reflexivity.
Qed.

Lemma entries_dappend {K V} `{EqDec K} (d : dict K (list V)) k x k' : entries (dappend d k x) k' = entries d k' ++ (if eqb k k' then [x] else []).
Proof.
  unfold entries, dappend. rewrite dget_dset. destruct (eq_dec k' k) as [E|E].
  - subst k'. rewrite eqb_refl. reflexivity.
  - rewrite (proj2 (eqb_false k k')) by congruence. symmetry. apply app_nil_r.
Qed.
Definition keyb (k k' : key) : bool :=
  match k, k' with KOverlap a, KOverlap b => eqb a b | KSidewall a, KSidewall b => eqb a b | KFringe a, KFringe b => eqb a b | _, _ => false end.
Lemma keyb_eq k k' : keyb k k' = true <-> k = k'.
Proof. destruct k, k'; cbn [keyb]; try (split; discriminate); rewrite eqb_true; (split; [intros ->; reflexivity|intros E; injection E; auto]). Qed.
Lemma table_run xs k : table (fst (run xs)) k = map cap_of (filter (fun x => keyb (key_of x) k) xs).
Proof.
  induction xs as [|x xs IH] using rev_ind; [destruct k; reflexivity|].
  rewrite run_snoc, filter_app, map_app, <- IH. clear IH. destruct (run xs) as [r db].
  destruct x as [c b t a|c i o|c i o l]; cbn [step fst]; destruct k as [k|k|k]; cbn [table key_of keyb filter map add_overlap_cap add_sidewall_cap add_sideoverlap_cap overlap_table sidewall_table sideoverlap_table];
    rewrite ?entries_dappend, ?map_app, ?app_nil_r; try reflexivity; destruct (eqb _ k); reflexivity.
Qed.
Lemma filter_nth {A} (f : A -> bool) l n x : nth_error (filter f l) n = Some x ->
  exists l1 l2, l = l1 ++ x :: l2 /\ List.length (filter f l1) = n /\ f x = true.
Proof.
  revert n. induction l as [|y l IH]; intros n E; [destruct n; discriminate E|]. cbn [filter] in E. destruct (f y) eqn:F.
  - destruct n as [|n]; [injection E as ->; exists [], l; repeat split; assumption|]. cbn [nth_error] in E. destruct (IH _ E) as (l1 & l2 & -> & L & X).
    exists (y :: l1), l2. cbn [filter]. rewrite F. cbn [List.length]. rewrite L. repeat split. exact X.
  - destruct (IH _ E) as (l1 & l2 & -> & L & X). exists (y :: l1), l2. cbn [filter]. rewrite F. repeat split; assumption.
Qed.
Lemma in_category_key (xs : list (call G)) (x : call G) : plain x -> Forall plain xs -> in_category (category x) xs = List.length (filter (fun y => keyb (key_of y) (key_of x)) xs).
Proof.
  intros P F. unfold in_category. induction F as [|y xs Y F IH]; [reflexivity|]. cbn [filter].
  replace (eqb (category y) (category x)) with (keyb (key_of y) (key_of x)).
  - destruct (keyb _ _); cbn [List.length]; rewrite IH; reflexivity.
  - destruct (keyb (key_of y) (key_of x)) eqn:K; symmetry.
    + apply keyb_eq in K. apply eqb_true. apply category_key; assumption.
    + apply eqb_false. intros E. apply category_key in E; try assumption. apply keyb_eq in E. rewrite E in K. discriminate K.
Qed.
End C.

(** * The resistance part *)
Import RQ_Model.
Lemma comp_dict_some {A V} (key : A -> nat) (val : A -> V) l k : (exists v, dget (comp_dict key val l) k = Some v) <-> In k (map key l).
Proof.
  rewrite comp_dict_get. destruct (last_such (fun x => eqb (key x) k) l) as [x|] eqn:E; cbn [option_map].
  - split; [|eauto]. intros _. apply last_such_In in E. destruct E as [I E]. apply eqb_eq in E. rewrite <- E. apply in_map, I.
  - split; [intros (v & H); discriminate H|]. intros I. apply in_map_iff in I. destruct I as (x & <- & I). exfalso.
    unfold last_such in E. rewrite in_rev in I. apply (find_none _ _ E) in I. rewrite eqb_refl in I. discriminate I.
Qed.
Lemma output_vias_some names vs db :
  (exists db', output_vias names vs db = Some db') <-> forall v, In v vs -> exists s, via_title names v = Some s.
Proof.
  revert db. induction vs as [|v vs IH]; intros db; cbn [output_vias].
  - split; [intros _ v []|eauto].
  - destruct (via_title names v) as [s|] eqn:E.
    + rewrite IH. split; [intros H w [<-|I]; [eauto|apply H, I]|intros H w I; apply H; right; exact I].
    + split; [intros (db' & H); discriminate H|]. intros H. destruct (H v (or_introl eq_refl)) as (s & S). rewrite E in S. discriminate S.
Qed.
Lemma via_title_some names v : (exists s, via_title names v = Some s) <-> (exists b, dget names (vi_bottom v) = Some b) /\ (exists t, dget names (vi_top v) = Some t).
Proof.
  unfold via_title. destruct (dget names (vi_bottom v)) as [b|], (dget names (vi_top v)) as [t|]; (split; [intros (x & E)|intros ((y & B) & (z & T))]); try discriminate; eauto.
Qed.
Lemma output_vias_items names vs db db' : output_vias names vs db = Some db' -> rd_items db' = rd_items db.
Proof.
  revert db. induction vs as [|v vs IH]; intros db; cbn [output_vias]; [intros E; injection E as <-; reflexivity|].
  destruct (via_title names v) as [s|]; [|discriminate]. intros E. apply IH in E. rewrite E. reflexivity.
Qed.
Lemma output_vias_cats cs vs : forall db db', output_vias (comp_dict (fun c => co_layer c) (fun c => co_canonical c) cs) vs db = Some db' ->
  exists ts, Forall2 (via_line cs) vs ts /\ rd_cats db' = (rd_cats db ++ map (fun t => (tech_path ++ ["Vias"; t])%list) ts)%list.
Proof.
  induction vs as [|v vs IH]; intros db db' E; cbn [output_vias] in E; [injection E as <-; exists []; split; [constructor|cbn; now rewrite app_nil_r]|].
  destruct (via_title _ v) as [s|] eqn:T; [|discriminate]. destruct (IH _ _ E) as (ts & F & C). exists (s :: ts). split; [constructor; [|exact F]|].
  - unfold via_title in T. rewrite !comp_dict_get in T. destruct (last_such (fun x => eqb (co_layer x) (vi_bottom v)) cs) as [b|] eqn:Eb; [|discriminate].
    destruct (last_such (fun x => eqb (co_layer x) (vi_top v)) cs) as [c|] eqn:Ec; [|discriminate]. cbn [option_map] in T. injection T as <-.
    apply last_such_In in Eb. apply last_such_In in Ec. destruct Eb as [B1 B2], Ec as [C1 C2]. apply eqb_eq in B2. apply eqb_eq in C2.
    exists (show_round 3 (vi_resistance v)), b, c. split; [apply show_round_rounds; discriminate|]. repeat (split; [assumption|]). reflexivity.
  - rewrite C. cbn [create_category rd_cats map]. rewrite <- app_assoc. reflexivity.
Qed.
Lemma tech_some db t : (exists db', output_rex_tech db t = Some db') <->
  forall v, In v (rt_vias t) -> In (vi_bottom v) (map co_layer (rt_conductors t)) /\ In (vi_top v) (map co_layer (rt_conductors t)).
Proof.
  unfold output_rex_tech. rewrite output_vias_some. split; intros H v I.
  - specialize (H v I). rewrite via_title_some, !comp_dict_some in H. exact H.
  - rewrite via_title_some, !comp_dict_some. apply H, I.
Qed.

Section Result.
Variable center : (Z * Z) * (Z * Z) -> Z * Z.
Lemma place_marker n : marker (xn_location n) = place n.
Proof. unfold place. destruct (xn_location n) as [[x y] s|p1 p2 s]; reflexivity. Qed.
Lemma find_rev_split {A} (f : A -> bool) l x : find f (rev l) = Some x -> exists l1 l2, l = l1 ++ x :: l2 /\ f x = true /\ forall y, In y l2 -> f y = false.
Proof.
  induction l as [|y l IH] using rev_ind; [discriminate|]. rewrite rev_unit. cbn [find]. destruct (f y) eqn:F.
  - intros E. injection E as <-. exists l, []. repeat split; [exact F|]. intros z [].
  - intros E. destruct (IH E) as (l1 & l2 & -> & X & H). exists l1, (l2 ++ [y]). repeat split; [rewrite <- app_assoc; reflexivity|exact X|].
    intros z I. apply in_app_iff in I. destruct I as [I|[<-|[]]]; [apply H, I|exact F].
Qed.
Lemma nodes_dict w i n : dget (comp_dict (fun n => xn_id n) (fun n => n) (xw_nodes w)) i = Some n -> node_of w i n.
Proof.
  rewrite comp_dict_get. destruct (last_such _ _) as [m|] eqn:E; [|discriminate]. cbn [option_map]. intros X. injection X as <-.
  unfold last_such in E. destruct (find_rev_split _ _ _ E) as (l1 & l2 & L & X & H). exists l1, l2. split; [exact L|]. split; [apply eqb_eq, X|].
  intros y I J. apply H in I. rewrite J, eqb_refl in I. discriminate I.
Qed.
Lemma ohm_ok r : shows_ohm r (ohm_text r).
Proof.
  unfold shows_ohm, ohm_text. destruct (qleb (Q2Qc (1 # 1000)) r) eqn:E.
  - exists (show_round 3 r). left. split; [|split; [reflexivity|apply show_round_rounds; discriminate]].
    apply qleb_true in E. unfold Qcle in E.  exact E.
  - exists (show_round 6 (r * Q2Qc 1000)%Qc). right. apply qleb_false in E. split; [|split; [reflexivity|]].
    + unfold Qclt in E. exact E.
    + pose proof (show_round_rounds 6 (r * Q2Qc 1000)%Qc ltac:(discriminate)) as (q & R & B). exists q. split; [exact R|]. 
      assert (X : (this (r * Q2Qc 1000)%Qc == r * 1000)%Q) by (apply (Qred_correct (r * 1000))). rewrite <- X. exact B.
Qed.
Lemma nodes_items p ns db : rd_items (fold_left (fun db n => output_node db p n) ns db) =
  rd_items db ++ map (fun n => (p ++ [node_title n], [MBox (fst (place n)) (snd (place n))])) ns.
Proof.
  revert db. induction ns as [|n ns IH]; intros db; cbn [fold_left map]; [symmetry; apply app_nil_r|]. rewrite IH. unfold output_node. rewrite place_marker.
  unfold output_shapes, snoc. cbn [rd_items create_category]. rewrite <- app_assoc. reflexivity.
Qed.
Lemma elements_items w p es db db' : output_elements center (comp_dict (fun n => xn_id n) (fun n => n) (xw_nodes w)) p es db = Some db' ->
  exists is, rd_items db' = rd_items db ++ is /\ Forall2 (fun e i => exists a b ohm, node_of w (ke_a e) a /\ node_of w (ke_b e) b /\ shows_ohm (ke_resistance e) ohm /\
    i = (p ++ [(xn_name a ++ " (" ++ xn_layer a ++ ") ↔︎ " ++ xn_name b ++ " (" ++ xn_layer b ++ "): " ++ ohm)%string], [MArrow (center (place a)) (center (place b))])) es is.
Proof.
  revert db. induction es as [|e es IH]; intros db; cbn [output_elements].
  - intros E. injection E as <-. exists []. split; [symmetry; apply app_nil_r|constructor].
  - unfold output_element. destruct (dget _ (ke_a e)) as [a|] eqn:A; [|discriminate]. destruct (dget _ (ke_b e)) as [b|] eqn:B; [|discriminate].
    intros E. destruct (IH _ E) as (is & I & F). eexists (_ :: is). split.
    + rewrite I. unfold output_shapes, snoc. cbn [rd_items create_category]. rewrite <- app_assoc. reflexivity.
    + constructor; [|exact F]. exists a, b, (ohm_text (ke_resistance e)). rewrite !place_marker. repeat split; [apply nodes_dict, A|apply nodes_dict, B|apply ohm_ok].
Qed.
Lemma elements_some (nodes : dict nat xnode) p es db : (exists db', output_elements center nodes p es db = Some db') <->
  forall e, In e es -> (exists a, dget nodes (ke_a e) = Some a) /\ (exists b, dget nodes (ke_b e) = Some b).
Proof.
  revert db. induction es as [|e es IH]; intros db; cbn [output_elements].
  - split; [intros _ e []|eauto].
  - unfold output_element. destruct (dget nodes (ke_a e)) as [a|] eqn:A; [destruct (dget nodes (ke_b e)) as [b|] eqn:B|].
    + rewrite IH. split; [intros H x [<-|I]; [rewrite A, B; eauto|apply H, I]|intros H x I; apply H; right; exact I].
    + split; [intros (d & H); discriminate H|]. intros H. destruct (H e (or_introl eq_refl)) as (_ & y & Y). rewrite B in Y. discriminate Y.
    + split; [intros (d & H); discriminate H|]. intros H. destruct (H e (or_introl eq_refl)) as ((y & Y) & _). rewrite A in Y. discriminate Y.
Qed.
Lemma network_some w db : (exists db', output_network center db w = Some db') <-> closed w.
Proof.
  unfold output_network, closed. rewrite elements_some.
  assert (X : forall i, (exists n, In n (xw_nodes w) /\ xn_id n = i) <-> In i (map xn_id (xw_nodes w))).
  { intros i. rewrite in_map_iff. split; intros (n & A & B); exists n; tauto. }
  split; intros H e I; specialize (H e I); rewrite !comp_dict_some in *; rewrite !X in *; exact H.
Qed.
Lemma network_ok w db db' : output_network center db w = Some db' -> exists is, rd_items db' = rd_items db ++ is /\ network_items center w is.
Proof.
  unfold output_network. intros E. apply elements_items in E. destruct E as (es & E & F). rewrite nodes_items in E. cbn [rd_items create_category] in E.
  eexists. split; [rewrite E, <- app_assoc; reflexivity|]. do 2 eexists. split; [reflexivity|]. split; [|exact F].
  clear. induction (xw_nodes w) as [|n ns IH]; [constructor|]. cbn [map]. constructor; [reflexivity|exact IH].
Qed.
Lemma result_ok ws db : ((exists db', output_rex_result center ws db = Some db') <-> Forall closed ws) /\
  forall db', output_rex_result center ws db = Some db' -> exists iss, rd_items db' = rd_items db ++ List.concat iss /\ Forall2 (network_items center) ws iss.
Proof.
  revert db. induction ws as [|w ws IH]; intros db; cbn [output_rex_result].
  - split; [split; [constructor|eauto]|]. intros db' E. injection E as <-. exists []. split; [symmetry; apply app_nil_r|constructor].
  - pose proof (network_some w db) as S. destruct (output_network center db w) as [d|] eqn:N.
    + destruct (IH d) as [I1 I2]. split.
      * rewrite I1. split; [intros H; constructor; [apply S; eauto|exact H]|intros H; inversion H; assumption].
      * intros db' E. destruct (I2 _ E) as (iss & A & B). destruct (network_ok _ _ _ N) as (is & C & D). exists (is :: iss).
        split; [rewrite A, C, <- app_assoc; reflexivity|constructor; assumption].
    + split; [|discriminate]. split; [intros (d & H); discriminate H|]. intros H. inversion H as [|w' ws' H1 H2]. apply S in H1. destruct H1 as (d & D). discriminate D.
Qed.
End Result.
