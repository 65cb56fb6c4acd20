(** Writing: the variables needed (C32) and the user's dictionary (C33). *)
From Coq Require Import Ascii String ZArith Bool Lia List.
From Coq Require Import Floats.SpecFloat.
From Verif Require Import PyBase PyFloat ModelFortran ModelRecords ModelTape ModelNum ModelRecipe ModelInterp.
From Verif Require Import SpecInterp ProofPyBase ProofInterp ProofInterpFrame ProofInterpCtl ProofInterpSec ProofInterpMap.
Import ListNotations.
Open Scope Z_scope.

(** ** C32 *)

Lemma eval_operand n sc lu cast e t a : operand a e -> eval_expr n sc lu cast false e = Ok t ->
  exists t', eval_expr n sc lu cast false a = Ok t'.
Proof.
  intros O H. rewrite eval_expr_eq in H. cbv zeta in H. inversion O; subst; dbind H; eauto;
    match type of H with context [let '(_, _) := ?q in _] => destruct q as [[? ?] ?] end; dbind H; eauto.
Qed.

Lemma eval_needs n : forall sc cast e t x ix, eval_expr n sc false cast false e = Ok t ->
  needs sc e x ix -> exists v, seen sc x ix v.
Proof.
  induction n as [n IHn] using (well_founded_induction PeanoNat.Nat.lt_wf_0). intros sc cast e t x ix H N. revert t H.
  induction N as [e x ix V|e y iy a x ix V S N _|a e x ix O N IH]; intros t H.
  - rewrite (eval_var_expr _ _ _ _ _ _ _ _ V) in H. unfold eval_var in H. unfold seen.
    destruct (get_raw sc false x ix) as [v|er]; [eauto|discriminate].
  - rewrite (eval_var_expr _ _ _ _ _ _ _ _ V) in H. unfold eval_var in H. unfold seen in S. rewrite S in H. cbn [bind] in H.
    destruct n as [|n]; [discriminate|]. destruct (eval_expr n sc false cast false a) as [t'|] eqn:E; [|discriminate].
    exact (IHn n ltac:(lia) _ _ _ _ _ _ E N).
  - destruct (eval_operand _ _ _ _ _ _ _ O H) as [t' H']. eauto.
Qed.

Lemma map_write_needs en es s vs s' : map_write en es s = (Ok vs, s') ->
  forall e x ix, In e es -> needs (scope_of s) e x ix -> exists v, seen (scope_of s) x ix v.
Proof.
  intros H e x ix I N. unfold map_write in H. injection H as H _. revert vs H. induction es as [|a es IH]; [contradiction|].
  cbn [mapM]. intros vs H. dbind H. dbind H. destruct I as [->|I]; [|eauto].
  unfold eval_known in E. dbind E. exact (eval_needs _ _ _ _ _ _ _ E1 N).
Qed.

Lemma map_write_state en es s vs s' : map_write en es s = (Ok vs, s') -> s' = s.
Proof. unfold map_write. congruence. Qed.
Lemma spec_write_state cs s a s' : check_spec_write cs s = (Ok a, s') -> s' = s.
Proof. unfold check_spec_write. congruence. Qed.

Theorem record_needs en i s s' : e_write en = true -> ps_look s = None -> exec en i s = (Ok tt, s') ->
  forall e x ix, In e (open_fields i) -> needs (scope_of s) e x ix -> exists v, seen (scope_of s) x ix v.
Proof.
  intros W L H e x ix I N.
  destruct i as [head cs f|cs f|cs l1 l2 n1 n2|cs ii jj kij nd|cs f x1 y1 name|cs f name|cs f body name| | | | | | ]; cbn [open_fields] in I; try contradiction.
  - change (guarded true (do_cont en head cs f) s = (Ok tt, s')) in H. rewrite proceed_none in H by exact L.
    unfold do_cont in H. rewrite W in H. apply mbind_ok in H as ([] & s1 & H1 & H). apply spec_write_state in H1 as ->.
    apply mbind_ok in H as (vs & s1 & H1 & H). exact (map_write_needs _ _ _ _ _ H1 _ _ _ I N).
  - change (guarded true (do_dir en cs [l1; l2; n1; n2]) s = (Ok tt, s')) in H. rewrite proceed_none in H by exact L.
    unfold do_dir in H. rewrite W in H. apply mbind_ok in H as ([] & s1 & H1 & H). apply spec_write_state in H1 as ->.
    apply mbind_ok in H as (vs & s1 & H1 & H). exact (map_write_needs _ _ _ _ _ H1 _ _ _ I N).
  - change (guarded true (do_intg en cs ii jj kij nd) s = (Ok tt, s')) in H. rewrite proceed_none in H by exact L.
    unfold do_intg in H. rewrite W in H. apply mbind_ok in H as ([] & s1 & H1 & H). apply spec_write_state in H1 as ->.
    apply mbind_ok in H as (vs & s1 & H1 & H). exact (map_write_needs _ _ _ _ _ H1 _ _ _ I N).
  - change (guarded true (do_tab1 en cs f x1 y1 name) s = (Ok tt, s')) in H. rewrite proceed_none in H by exact L.
    unfold do_tab1 in H. rewrite W in H. apply mbind_ok in H as ([] & s1 & H1 & H). apply spec_write_state in H1 as ->.
    apply mbind_ok in H as (vs & s1 & H1 & H). pose proof (map_write_state _ _ _ _ _ H1) as ->.
    apply mbind_ok in H as (tv & s1 & H2 & H).
    assert (I2 : In e [f_c1 f; f_c2 f; f_l1 f; f_l2 f] \/ name = None /\ In e (tab_vars ++ [ev x1; ev y1])).
    { destruct name; [left; exact I|]. unfold tab_vars, ev. cbn [app In] in *. tauto. }
    destruct I2 as [I2|[-> I2]]; [exact (map_write_needs _ _ _ _ _ H1 _ _ _ I2 N)|].
    exact (map_write_needs _ _ _ _ _ H2 _ _ _ I2 N).
  - change (guarded true (do_tab2 en cs f name) s = (Ok tt, s')) in H. rewrite proceed_none in H by exact L.
    unfold do_tab2 in H. rewrite W in H. apply mbind_ok in H as ([] & s1 & H1 & H). apply spec_write_state in H1 as ->.
    apply mbind_ok in H as (vs & s1 & H1 & H). pose proof (map_write_state _ _ _ _ _ H1) as ->.
    apply mbind_ok in H as (tv & s1 & H2 & H).
    assert (I2 : In e [f_c1 f; f_c2 f; f_l1 f; f_l2 f; f_n2 f] \/ name = None /\ In e tab_vars).
    { destruct name; [left; exact I|]. unfold tab_vars, ev. cbn [app In] in *. tauto. }
    destruct I2 as [I2|[-> I2]]; [exact (map_write_needs _ _ _ _ _ H1 _ _ _ I2 N)|].
    exact (map_write_needs _ _ _ _ _ H2 _ _ _ I2 N).
  - change (guarded true (do_list en cs f body name) s = (Ok tt, s')) in H. rewrite proceed_none in H by exact L.
    unfold do_list in H. rewrite W in H. apply mbind_ok in H as ([] & s1 & H1 & H). apply spec_write_state in H1 as ->.
    apply mbind_ok in H as (vs & s1 & H1 & H). exact (map_write_needs _ _ _ _ _ H1 _ _ _ I N).
Qed.

Theorem element_needs en e vals pos s r s' : e_write en = true -> list_item en (LExpr e) (vals, pos) s = (Ok r, s') ->
  s' = s /\ (exists v, eval_known (e_depth en) (scope_of s) false false e = Ok (VNum v) /\ r = (vals ++ [v], S pos)) /\
  forall x ix, needs (scope_of s) e x ix -> exists v, seen (scope_of s) x ix v.
Proof.
  intros W H. cbn [list_item] in H. unfold list_expr in H. rewrite W in H. apply mbind_ok in H as (vs & s1 & H1 & H).
  pose proof (map_write_state _ _ _ _ _ H1) as ->. split.
  - destruct vs as [|v [|]]; try discriminate. apply mbind_ok in H as (n & s1 & H2 & H). injection H2 as _ <-. injection H as _ <-. reflexivity.
  - split; [|intros x ix N; exact (map_write_needs _ _ _ _ _ H1 _ _ _ (or_introl eq_refl) N)].
    pose proof (f_equal fst H1) as H3. unfold map_write in H3. cbn [fst mapM] in H3. dbind H3. cbn [bind] in H3. injection H3 as <-.
    destruct a; try discriminate H. injection H as <- _. eexists. split; reflexivity.
Qed.

Theorem section_needs en u es s vs s' : in_section en (Some u) (map_write en es) s = (Ok vs, s') ->
  exists s1, open_section en u s = (Ok tt, s1) /\
    forall e x ix, In e es -> needs (scope_of s1) e x ix -> exists v, seen (scope_of s1) x ix v.
Proof.
  intros H. unfold in_section in H. apply mbind_ok in H as ([] & s1 & H1 & H). apply mbind_ok in H as (b & s2 & H2 & H).
  exists s1. split; [exact H1|]. exact (map_write_needs _ _ _ _ _ H2).
Qed.

Lemma get_raw_absent sc x ix : lget x (sc_loops sc) = None -> dget (KStr x) (sc_dic sc) = None ->
  get_raw sc false x ix = Err (VariableNotFoundError x).
Proof. intros L D. unfold get_raw. rewrite L, D. reflexivity. Qed.

Lemma map_write_absent en pre e post x ix s vs : variable e x ix ->
  lget x (ps_loops s) = None -> dget (KStr x) (ps_dic s) = None ->
  mapM (eval_known (e_depth en) (scope_of s) false false) pre = Ok vs ->
  map_write en (pre ++ e :: post) s = (Err (VariableNotFoundError x), s).
Proof.
  intros V L D P. unfold map_write. f_equal. revert vs P. induction pre as [|a pre IH]; cbn [mapM app]; intros vs P.
  - unfold eval_known. rewrite (eval_var_expr _ _ _ _ _ _ _ _ V). unfold eval_var. rewrite get_raw_absent by assumption. reflexivity.
  - dbind P. dbind P. cbn [bind]. rewrite (IH _ eq_refl). reflexivity.
Qed.

Theorem record_absent en i cs es s pre e post x ix vs : e_write en = true -> ps_look s = None ->
  first_fields i = Some (cs, es) -> check_spec_write cs s = (Ok tt, s) ->
  es = pre ++ e :: post -> mapM (eval_known (e_depth en) (scope_of s) false false) pre = Ok vs ->
  variable e x ix -> lget x (ps_loops s) = None -> dget (KStr x) (ps_dic s) = None ->
  exec en i s = (Err (VariableNotFoundError x), s).
Proof.
  intros W L I C F P V LX DX.
  assert (G : forall (k : list val -> M unit), (run _ <- check_spec_write cs; run vs <- map_write en es; k vs) s = (Err (VariableNotFoundError x), s)).
  { intros k. unfold mbind at 1. rewrite C. unfold mbind at 1. rewrite F, (map_write_absent _ _ _ _ _ _ _ _ V LX DX P). reflexivity. }
  destruct i as [head q f|q f|q l1 l2 n1 n2|q ii jj kij nd|q f x1 y1 name|q f name|q f body name| | | | | | ]; cbn [first_fields] in I; try discriminate I; injection I as <- <-;
    [change (guarded true (do_cont en head q f) s = (Err (VariableNotFoundError x), s))
    |change (guarded true (do_dir en q [l1; l2; n1; n2]) s = (Err (VariableNotFoundError x), s))
    |change (guarded true (do_intg en q ii jj kij nd) s = (Err (VariableNotFoundError x), s))
    |change (guarded true (do_tab1 en q f x1 y1 name) s = (Err (VariableNotFoundError x), s))
    |change (guarded true (do_tab2 en q f name) s = (Err (VariableNotFoundError x), s))
    |change (guarded true (do_list en q f body name) s = (Err (VariableNotFoundError x), s))];
    rewrite proceed_none by exact L; unfold do_cont, do_dir, do_intg, do_tab1, do_tab2, do_list; rewrite W; apply G.
Qed.

Lemma mapM_forall2 {A B} (g : A -> result B) l vs : mapM g l = Ok vs -> Forall2 (fun e v => g e = Ok v) l vs.
Proof.
  revert vs. induction l as [|e es IH]; cbn [mapM]; intros vs H.
  - injection H as <-. constructor.
  - dbind H. dbind H. injection H as <-. constructor; [exact E|]. apply IH. reflexivity.
Qed.

Theorem cont_values en head cs f s s' : e_write en = true -> ps_look s = None ->
  exec en (ICont head cs f) s = (Ok tt, s') ->
  exists vs r c ls, Forall2 (fun e v => eval_known (e_depth en) (scope_of s) false false e = Ok v) (fields_list f) vs /\
    cont_of vs = Ok r /\ write_cont (e_wo en) r c = Ok ls /\ ps_lines s' = ps_lines s ++ ls /\ ps_dic s' = ps_dic s.
Proof.
  intros W L H. change (guarded true (do_cont en head cs f) s = (Ok tt, s')) in H. rewrite proceed_none in H by exact L.
  unfold do_cont in H. rewrite W in H. apply mbind_ok in H as ([] & s1 & H1 & H). apply spec_write_state in H1 as ->.
  apply mbind_ok in H as (vs & s1 & H1 & H). pose proof (map_write_state _ _ _ _ _ H1) as ->. rename H1 into H0.
  unfold map_write in H0. unfold write_with in H. destruct (the_ctrl s) as [c|]; cbn [bind] in H; [|discriminate].
  destruct (cont_of vs) as [r|] eqn:R; cbn [bind] in H; [|discriminate].
  destruct (write_cont (e_wo en) r c) as [ls|] eqn:WC; [|discriminate]. injection H as <-.
  exists vs, r, c, ls. split; [|repeat split; assumption || reflexivity].
  exact (mapM_forall2 _ _ _ (f_equal fst H0)).
Qed.

Lemma block_app en a b s s1 : ps_look s = None -> exec_block en a s = (Ok tt, s1) ->
  exec_block en (bapp a b) s = exec_block en b s1.
Proof.
  revert s. induction a as [|i a IH]; intros s L H.
  - rewrite exec_nil_eq in H. injection H as <-. reflexivity.
  - cbn [bapp]. rewrite exec_cons_eq in H |- *. unfold mbind in H |- *. unfold should_proceed in H |- *. rewrite L in H |- *.
    destruct (exec en i s) as [[[]|] s2] eqn:E; [|discriminate].
    apply IH; [|exact H]. exact (fk_look _ _ _ (proj1 (exec_frame en) _ _ _ _ E) L).
Qed.

Theorem write_absent en b i post o mf mt d s1 cs es pre e fpost x ix vs : e_write en = true ->
  dget (KStr $"MF") d = Some (vint mf) -> dget (KStr $"MT") d = Some (vint mt) ->
  exec_block en b (set_dic (init_working d) (reset_state o [] [])) = (Ok tt, s1) ->
  first_fields i = Some (cs, es) -> check_spec_write cs s1 = (Ok tt, s1) ->
  es = pre ++ e :: fpost -> mapM (eval_known (e_depth en) (scope_of s1) false false) pre = Ok vs ->
  variable e x ix -> lget x (ps_loops s1) = None -> dget (KStr x) (ps_dic s1) = None ->
  fst (write_recipe en true (bapp b (BCons i post)) o mf mt d) = Err (VariableNotFoundError x).
Proof.
  intros W M1 M2 B I C F P V LX DX. unfold write_recipe.
  assert (S : forall k z, dget (KStr k) d = Some (vint z) -> set_ctrl_default k z d = (d, true)).
  { intros k z G. unfold set_ctrl_default. rewrite G. f_equal. unfold val_eqZ, vint, num_eqb, num_cmp.
    cbn [sf_of num_num num_den]. rewrite Z.compare_refl. reflexivity. }
  rewrite (S _ _ M1). cbn [negb]. rewrite (S _ _ M2). cbn [negb].
  assert (L1 : ps_look s1 = None) by (exact (fk_look _ _ _ (proj2 (exec_frame en) _ _ _ _ B) eq_refl)).
  assert (R : exists s', run_section en (bapp b (BCons i post)) (reset_state o [] d) = (Err (VariableNotFoundError x), s')).
  { exists s1. unfold run_section. unfold mbind at 1. unfold modify. unfold mbind at 1.
    change (set_dic (init_working (ps_dic (reset_state o [] d))) (reset_state o [] d)) with (set_dic (init_working d) (reset_state o [] [])).
    pose proof (fun L => block_app en b (BCons i post) _ s1 L B) as Q. rewrite (Q eq_refl). rewrite exec_cons_eq. unfold mbind. unfold should_proceed. rewrite L1.
    rewrite (record_absent en i cs es s1 pre e fpost x ix vs W L1 I C F P V LX DX). reflexivity. }
  destruct R as [s' ->]. destruct (unwind _ _ _). reflexivity.
Qed.

(** ** C33 *)

Definition kA : key := KStr $"__abbrevs".
Definition kS : key := KStr $"__startidcs".
Definition kU : key := KStr $"__up".

Definition wform (base : dict) (abbrs : list (str * expr)) : dict :=
  base ++ (kA, VNames (map fst abbrs)) :: (kS, VDict []) :: map (fun p => (KStr (fst p), VExpr (snd p))) abbrs.

Record wok (base : dict) (abbrs : list (str * expr)) : Prop := {
  wk_A : dget kA base = None; wk_S : dget kS base = None;
  wk_clean : forall k v, dget k base = Some v -> clean v;
  wk_new : forall x, In x (map fst abbrs) -> dget (KStr x) base = None /\ KStr x <> kA /\ KStr x <> kS;
  wk_nodup : NoDup (map fst abbrs)
}.

Lemma dget_app_none k a b : dget k a = None -> dget k (a ++ b) = dget k b.
Proof. induction a as [|[k' v'] a IH]; cbn [dget app]; [auto|]. destruct (key_eqb k k'); [discriminate|exact IH]. Qed.
Lemma dget_app_some k a b v : dget k a = Some v -> dget k (a ++ b) = Some v.
Proof. induction a as [|[k' v'] a IH]; cbn [dget app]; [discriminate|]. destruct (key_eqb k k'); [auto|exact IH]. Qed.
Lemma dset_app_none k v a b : dget k a = None -> dset k v (a ++ b) = a ++ dset k v b.
Proof. induction a as [|[k' v'] a IH]; cbn [dget dset app]; [auto|]. destruct (key_eqb k k'); [discriminate|]. intros H. rewrite IH by exact H. reflexivity. Qed.
Lemma ddel_app_none k a b : dget k a = None -> ddel k (a ++ b) = a ++ ddel k b.
Proof. induction a as [|[k' v'] a IH]; cbn [dget ddel app]; [auto|]. destruct (key_eqb k k'); [discriminate|]. intros H. rewrite IH by exact H. reflexivity. Qed.
Lemma dset_same k v d : dget k d = Some v -> dset k v d = d.
Proof. induction d as [|[k' v'] d IH]; cbn [dget dset]; [discriminate|]. destruct (key_eqb k k'); intros H; [congruence|]. rewrite IH by exact H. reflexivity. Qed.
Lemma dset_new k v d : dget k d = None -> dset k v d = d ++ [(k, v)].
Proof. intros H. rewrite <- (app_nil_r d) at 1. rewrite dset_app_none by exact H. reflexivity. Qed.
Lemma ddel_dset_new k v d : dget k d = None -> ddel k (dset k v d) = d.
Proof. intros H. rewrite dset_new by exact H. rewrite ddel_app_none by exact H. cbn [ddel]. rewrite key_eqb_refl. apply app_nil_r. Qed.

Lemma dget_abbrs x abbrs : ~ In x (map fst abbrs) -> dget (KStr x) (map (fun p => (KStr (fst p), VExpr (snd p))) abbrs) = None.
Proof.
  induction abbrs as [|[y e] r IH]; cbn [map dget fst snd]; intros N; [reflexivity|].
  rewrite key_eqb_neq; [apply IH|]; intros Q; apply N; [right; exact Q|left]. congruence.
Qed.
Lemma dget_abbrs_any k abbrs v : dget k (map (fun p : str * expr => (KStr (fst p), VExpr (snd p))) abbrs) = Some v -> exists e, v = VExpr e.
Proof.
  induction abbrs as [|[y e] r IH]; cbn [map dget fst snd]; [discriminate|]. destruct (key_eqb _ _); [|exact IH].
  intros H. injection H as <-. eauto.
Qed.

Lemma wform_clean base abbrs k v : wok base abbrs -> dget k (wform base abbrs) = Some v -> clean v.
Proof.
  intros K H. unfold wform in H. destruct (dget k base) as [w|] eqn:E.
  - rewrite (dget_app_some _ _ _ _ E) in H. injection H as <-. exact (wk_clean _ _ K _ _ E).
  - rewrite dget_app_none in H by exact E. cbn [dget] in H. destruct (key_eqb k kA); [injection H as <-; apply cl_other; discriminate|].
    destruct (key_eqb k kS). { injection H as <-. apply cl_dict; [reflexivity|discriminate]. }
    apply dget_abbrs_any in H as [e ->]. apply cl_other. discriminate.
Qed.

Lemma introduce_wok x e base abbrs s s' : wok base abbrs -> ps_dic s = wform base abbrs -> introduce x e s = (Ok tt, s') ->
  exists abbrs', wok base abbrs' /\ ps_dic s' = wform base abbrs'.
Proof.
  intros K D H. unfold introduce in H. rewrite D in H.
  assert (AN : dget kA (wform base abbrs) = Some (VNames (map fst abbrs))).
  { unfold wform. rewrite dget_app_none by exact (wk_A _ _ K). cbn [dget]. rewrite key_eqb_refl. reflexivity. }
  change (KStr $"__abbrevs") with kA in H. rewrite AN in H.
  destruct (existsb (str_eqb x) (map fst abbrs)) eqn:EX.
  - apply existsb_exists in EX as (y & I & Q). apply str_eqb_eq in Q. subst y.
    destruct (wk_new _ _ K _ I) as (NB & NA & NS).
    assert (exists abbrs', map fst abbrs' = map fst abbrs /\
      dget (KStr x) (map (fun p => (KStr (fst p), VExpr (snd p))) abbrs) <> None /\
      dset (KStr x) (VExpr e) (map (fun p => (KStr (fst p), VExpr (snd p))) abbrs) = map (fun p => (KStr (fst p), VExpr (snd p))) abbrs') as (abbrs' & M1 & M2 & M3).
    { clear -I. induction abbrs as [|[y f] r IH]; [contradiction|]. cbn [map fst snd dget dset].
      destruct (key_dec (KStr x) (KStr y)) as [E|E].
      - injection E as ->. rewrite key_eqb_refl. exists ((y, e) :: r). split; [reflexivity|]. split; [discriminate|reflexivity].
      - rewrite key_eqb_neq by exact E. destruct I as [I|I]; [cbn in I; congruence|]. destruct (IH I) as (r' & A & B & C).
        exists ((y, f) :: r'). split; [cbn; rewrite A; reflexivity|]. split; [exact B|]. rewrite C. reflexivity. }
    assert (DX : dget (KStr x) (wform base abbrs) <> None).
    { unfold wform. rewrite dget_app_none by exact NB. cbn [dget]. rewrite !key_eqb_neq by assumption. exact M2. }
    destruct (dget (KStr x) (wform base abbrs)); [|contradiction]. injection H as <-. exists abbrs'. split.
    + destruct K as [K1 K2 K3 K4 K5]. split; try assumption; rewrite M1; assumption.
    + cbn [set_dic ps_dic]. unfold wform. rewrite dset_app_none by exact NB. cbn [dset]. rewrite !key_eqb_neq by assumption. rewrite M3, M1. reflexivity.
  - destruct (dget (KStr x) (wform base abbrs)) eqn:DX; [discriminate|]. injection H as <-. exists (abbrs ++ [(x, e)]).
    assert (NB : dget (KStr x) base = None).
    { destruct (dget (KStr x) base) eqn:E; [|reflexivity]. unfold wform in DX. rewrite (dget_app_some _ _ _ _ E) in DX. discriminate. }
    unfold wform in DX. rewrite dget_app_none in DX by exact NB. cbn [dget] in DX.
    assert (NA : KStr x <> kA) by (intros Q; rewrite Q, key_eqb_refl in DX; discriminate).
    rewrite key_eqb_neq in DX by exact NA.
    assert (NS : KStr x <> kS) by (intros Q; rewrite Q, key_eqb_refl in DX; discriminate).
    rewrite key_eqb_neq in DX by exact NS.
    assert (NI : ~ In x (map fst abbrs)).
    { intros I. assert (existsb (str_eqb x) (map fst abbrs) = true); [|congruence]. apply existsb_exists. exists x. split; [exact I|]. apply str_eqb_eq. reflexivity. }
    split.
    + destruct K as [K1 K2 K3 K4 K5]. split; try assumption; rewrite map_app.
      * intros y I. apply in_app_iff in I as [I|[<-|[]]]; [apply K4; exact I|]. cbn [fst]. repeat split; assumption.
      * apply NoDup_rev in K5. rewrite <- (rev_involutive (map fst abbrs ++ _)). apply NoDup_rev. rewrite rev_app_distr. cbn [rev app map fst].
        constructor; [|exact K5]. rewrite <- in_rev. exact NI.
    + cbn [set_dic ps_dic]. unfold wform. rewrite dset_app_none by exact (wk_A _ _ K). cbn [dset]. rewrite key_eqb_refl.
      rewrite dset_app_none by exact NB. cbn [dset]. rewrite !key_eqb_neq by assumption.
      rewrite dset_new by exact DX. rewrite !map_app. cbn [map fst snd]. reflexivity.
Qed.

Lemma remove_wok base abbrs s s' : wok base abbrs -> ps_dic s = wform base abbrs -> remove_working s = (Ok tt, s') -> ps_dic s' = base.
Proof.
  intros K D H. unfold remove_working in H. rewrite D in H.
  assert (AN : dget kA (wform base abbrs) = Some (VNames (map fst abbrs))).
  { unfold wform. rewrite dget_app_none by exact (wk_A _ _ K). cbn [dget]. rewrite key_eqb_refl. reflexivity. }
  change (KStr $"__abbrevs") with kA in H. rewrite AN in H.
  assert (DN : forall abbrs l, (forall x, In x (map fst abbrs) -> dget (KStr x) base = None /\ KStr x <> kA /\ KStr x <> kS) ->
    del_names (map fst abbrs) (base ++ (kA, VNames l) :: (kS, VDict []) :: map (fun p => (KStr (fst p), VExpr (snd p))) abbrs) =
      Ok (base ++ [(kA, VNames l); (kS, VDict [])])).
  { clear -base. induction abbrs as [|[x e] r IH]; intros l N; [reflexivity|]. cbn [map fst snd del_names].
    destruct (N x (or_introl eq_refl)) as (NB & NA & NS). rewrite dget_app_none by exact NB. cbn [dget]. rewrite !key_eqb_neq by assumption.
    rewrite key_eqb_refl. rewrite ddel_app_none by exact NB. cbn [ddel]. rewrite !key_eqb_neq by assumption. rewrite key_eqb_refl.
    apply IH. intros y I. apply N. right. exact I. }
  unfold wform in H. rewrite (DN _ _ (wk_new _ _ K)) in H. injection H as <-. cbn [set_dic ps_dic].
  change (KStr $"__startidcs") with kS. rewrite ddel_app_none by exact (wk_A _ _ K). cbn [ddel]. rewrite key_eqb_refl.
  rewrite ddel_app_none by exact (wk_S _ _ K). cbn [ddel]. rewrite key_eqb_refl. apply app_nil_r.
Qed.

(** an existing path is opened without change, and closed likewise *)
Lemma open_path_same name ks : forall cur inner cur', open_path false name ks cur = Ok (inner, cur') ->
  cur' = cur /\ path_get ks cur = Some (VDict inner) /\ put_path ks (VDict inner) cur = cur.
Proof.
  induction ks as [|k ks IH]; cbn [open_path]; intros cur inner cur' H.
  - destruct cur; try discriminate. injection H as <- <-. repeat split; reflexivity.
  - destruct cur as [| | |d| | | |]; try discriminate. destruct (dget k d) as [o|] eqn:G; [|discriminate].
    destruct (open_path false name ks o) as [[i o']|] eqn:E; cbn [bind] in H; [|discriminate]. injection H as <- <-.
    destruct (IH _ _ _ E) as (-> & P & Q). cbn [path_get put_path]. rewrite G, Q, (dset_same _ _ _ G). auto.
Qed.

Lemma path_clean ks : forall d v, (forall k w, dget k d = Some w -> clean w) -> ks <> [] -> path_get ks (VDict d) = Some v -> clean v.
Proof.
  induction ks as [|k ks IH]; intros d v C N H; [contradiction|]. cbn [path_get] in H. destruct (dget k d) as [o|] eqn:G; [|discriminate].
  destruct ks as [|k2 ks]; [injection H as <-; eauto|].
  pose proof (C _ _ G) as CO. destruct o; try discriminate. eapply IH; [|discriminate|exact H].
  intros k' w Gw. inversion CO as [d' A B|w' A]; subst; [eauto|]. destruct (A _ eq_refl).
Qed.

Lemma section_restored en u s s1 base abbrs : e_write en = true -> wok base abbrs -> ps_dic s = wform base abbrs ->
  open_section en u s = (Ok tt, s1) ->
  exists inner, clean (VDict inner) /\ ps_dic s1 = dset kU VUp inner /\ dget kU inner = None /\
    forall s2 s3, ps_up s2 = ps_up s1 -> ps_dic s2 = ps_dic s1 -> close_section s2 = (Ok tt, s3) -> ps_dic s3 = ps_dic s.
Proof.
  intros W K D H. unfold open_section in H. destruct u as [x ix]. rewrite W in H. cbn [negb] in H.
  destruct (mapM (get_indexvalue (ps_loops s)) ix) as [idcs|]; cbn [bind] in H; [|discriminate].
  destruct (open_path false x (KStr x :: map KInt idcs) (VDict (ps_dic s))) as [[inner cur]|] eqn:E; cbn [bind] in H; [|discriminate].
  destruct (open_path_same _ _ _ _ _ E) as (-> & P & Q). injection H as <-. exists inner.
  assert (C : clean (VDict inner)).
  { apply (path_clean (KStr x :: map KInt idcs) (ps_dic s)); [|discriminate|exact P]. rewrite D. intros k w. apply wform_clean. exact K. }
  split; [exact C|]. split; [reflexivity|].
  assert (NU : dget kU inner = None) by (inversion C as [d A B|d A]; subst; [apply A; left; reflexivity|destruct (A _ eq_refl)]).
  split; [exact NU|]. intros s2 s3 U D2 CL. unfold close_section in CL. rewrite U in CL. cbn [set_up ps_up] in CL. injection CL as <-.
  unfold set_up at 1. cbn [ps_dic]. rewrite D2. cbn [set_up ps_dic]. change (KStr $"__up") with kU. rewrite ddel_dset_new by exact NU.
  unfold outer, frame_keys. cbn [fr_name fr_idx fr_dic]. rewrite Q. reflexivity.
Qed.

(** the dictionary before and after *)
Definition kept (s s' : pstate) : Prop :=
  forall base abbrs, wok base abbrs -> ps_dic s = wform base abbrs -> exists abbrs', wok base abbrs' /\ ps_dic s' = wform base abbrs'.
Lemma kept_preorder : preorder kept.
Proof.
  split.
  - intros s base abbrs K D. eauto.
  - intros a b c H1 H2 base abbrs K D. destruct (H1 _ _ K D) as (ab & K1 & D1). exact (H2 _ _ K1 D1).
Qed.
Lemma same_kept s s' : ps_dic s' = ps_dic s -> kept s s'.
Proof. intros E base abbrs K D. exists abbrs. split; [exact K|congruence]. Qed.

(** nothing in the dictionary changes *)
Definition sdic (s s' : pstate) : Prop := ps_dic s' = ps_dic s /\ ps_up s' = ps_up s.
Lemma sdic_preorder : preorder sdic.
Proof. split; unfold sdic; intuition congruence. Qed.

Section Kept.
  Variable en : env.
  Hypothesis W : e_write en = true.

  Ltac kstep :=
    match goal with
    | |- keeps _ (mbind _ _) => apply keeps_bind; [exact sdic_preorder | |]
    | |- keeps _ (ret _) => apply keeps_ret; exact sdic_preorder
    | |- keeps _ (fail _) => apply keeps_fail
    | |- keeps _ (lift _) => apply keeps_lift; exact sdic_preorder
    | |- keeps _ (map_write _ _) => apply keeps_read; exact sdic_preorder
    | |- keeps _ (eval_ctl _ _) => apply keeps_read; exact sdic_preorder
    | |- keeps _ (check_spec_write _) => apply keeps_read; exact sdic_preorder
    | |- keeps _ (fun s => (_, s)) => apply keeps_read; exact sdic_preorder
    | |- keeps _ (modify (fun s => set_loops _ s)) => apply keeps_modify; intros; split; reflexivity
    | |- keeps _ (let '(_, _) := ?x in _) => destruct x
    | |- keeps _ (if ?b then _ else _) => destruct b
    | |- keeps _ (match ?l with [] => _ | _ :: _ => _ end) => destruct l
    | |- forall _, _ => intros ?
    end.

  Lemma sdic_write r : keeps sdic (write_with r).
  Proof. intros s a s' H. unfold write_with in H. destruct (r s); [|discriminate]. injection H as _ <-. split; reflexivity. Qed.

  Lemma sdic_list : (forall i ls, keeps sdic (list_item en i ls)) /\ (forall b ls, keeps sdic (list_body en b ls)).
  Proof.
    apply lrecipe_mut.
    - intros e [vals pos]. cbn [list_item]. unfold list_expr. rewrite W. repeat kstep.
    - intros [vals pos]. cbn [list_item]. unfold list_pad. repeat kstep.
    - intros v a b body IH ls. rewrite list_loop_eq. unfold cycle_list_loop. repeat kstep.
      intros s x s' H. destruct (lget v (ps_loops s)); [discriminate|].
      match type of H with ?m s = _ => assert (Q : keeps sdic m) end; [|exact (Q _ _ _ H)].
      clear s x s' H. repeat kstep. clear -IH. revert ls. induction (zrange _ _) as [|i r IHr]; intros ls; cbn [iterate_l]; repeat kstep; auto.
    - intros ls. apply keeps_ret. exact sdic_preorder.
    - intros i IHi b IHb ls. rewrite list_cons_eq. repeat kstep; auto.
  Qed.

  Lemma in_section_kept {A} name (m : M A) : keeps sdic m -> forall s a s' base abbrs, wok base abbrs -> ps_dic s = wform base abbrs ->
    in_section en name m s = (Ok a, s') -> ps_dic s' = ps_dic s.
  Proof.
    intros Hm s a s' base abbrs K D H. unfold in_section in H. destruct name as [u|]; [|exact (proj1 (Hm _ _ _ H))].
    apply mbind_ok in H as ([] & s1 & H1 & H). apply mbind_ok in H as (b & s2 & H2 & H). apply mbind_ok in H as ([] & s3 & H3 & H).
    injection H as _ <-. destruct (section_restored en u s s1 _ _ W K D H1) as (inner & _ & _ & _ & R).
    destruct (Hm _ _ _ H2) as [E1 E2]. exact (R _ _ E2 E1 H3).
  Qed.

  Lemma kept_in_section {A} name (m : M A) : keeps sdic m -> keeps kept (in_section en name m).
  Proof. intros Hm s a s' H base abbrs K D. exists abbrs. split; [exact K|]. rewrite (in_section_kept name m Hm _ _ _ _ _ K D H). exact D. Qed.

  Lemma sdic_kept {A} (m : M A) : keeps sdic m -> keeps kept m.
  Proof. intros H s a s' E. apply same_kept. exact (proj1 (H _ _ _ E)). Qed.

  Lemma kept_proceed b : keeps kept (should_proceed b).
  Proof.
    intros s a s' H. unfold should_proceed in H. destruct (ps_look s); [|injection H as _ <-; apply same_kept; reflexivity].
    destruct (z =? 0); injection H as _ <-; [apply same_kept; reflexivity|]. destruct b; apply same_kept; reflexivity.
  Qed.

  Lemma kept_guarded b m : keeps kept m -> keeps kept (guarded b m).
  Proof.
    intros H. unfold guarded. apply keeps_bind; [exact kept_preorder|apply kept_proceed|]. intros [|]; [exact H|apply keeps_ret; exact kept_preorder].
  Qed.

  Theorem exec_kept :
    (forall i, keeps kept (exec en i)) /\ (forall b, keeps kept (exec_block en b)) /\
    (forall b, keeps kept (exec_branch en b)) /\ (forall r els, keeps kept els -> keeps kept (exec_branches en r els)).
  Proof.
    apply recipe_mut; intros;
      rewrite ?exec_section_eq, ?exec_for_eq, ?exec_if_eq, ?exec_cons_eq, ?exec_nil_eq, ?exec_branch_eq, ?exec_rcons_eq.
    - apply kept_guarded, sdic_kept. unfold do_cont. rewrite W. repeat kstep. apply sdic_write.
    - apply kept_guarded, sdic_kept. unfold do_text. rewrite W. repeat kstep. apply sdic_write.
    - apply kept_guarded, sdic_kept. unfold do_dir. rewrite W. repeat kstep. apply sdic_write.
    - apply kept_guarded, sdic_kept. unfold do_intg. rewrite W. repeat kstep. apply sdic_write.
    - apply kept_guarded. unfold do_tab1. rewrite W.
      apply keeps_bind; [exact kept_preorder|apply sdic_kept; repeat kstep|]. intros _.
      apply keeps_bind; [exact kept_preorder|apply sdic_kept; repeat kstep|]. intros vs.
      apply keeps_bind; [exact kept_preorder|apply kept_in_section; repeat kstep|]. intros tv. apply sdic_kept, sdic_write.
    - apply kept_guarded. unfold do_tab2. rewrite W.
      apply keeps_bind; [exact kept_preorder|apply sdic_kept; repeat kstep|]. intros _.
      apply keeps_bind; [exact kept_preorder|apply sdic_kept; repeat kstep|]. intros vs.
      apply keeps_bind; [exact kept_preorder|apply kept_in_section; repeat kstep|]. intros tv. apply sdic_kept, sdic_write.
    - apply kept_guarded. unfold do_list. rewrite W.
      apply keeps_bind; [exact kept_preorder|apply sdic_kept; repeat kstep|]. intros _.
      apply keeps_bind; [exact kept_preorder|apply sdic_kept; repeat kstep|]. intros vs.
      apply keeps_bind; [exact kept_preorder|apply kept_in_section; apply sdic_list|]. intros [tv ?]. apply sdic_kept, sdic_write.
    - apply kept_guarded, sdic_kept. unfold do_send. rewrite W. apply sdic_write.
    - apply kept_guarded. intros s a s' E. unfold do_stop in E. rewrite W in E. discriminate E.
    - apply kept_guarded. destruct (negb _); [apply keeps_fail|].
      intros s a s' E base abbrs K D. exists abbrs. split; [exact K|]. rewrite <- D.
      apply mbind_ok in E as ([] & s1 & E1 & E). apply mbind_ok in E as ([] & s2 & E2 & E). injection E2 as <-.
      apply mbind_ok in E as ([] & s3 & E3 & E). apply mbind_ok in E as ([] & s4 & E4 & E).
      destruct (section_restored en head s s1 _ _ W K D E1) as (inner & C & D1 & NU & R).
      assert (IC : (forall k, working_key k -> dget k inner = None) /\ (forall k v, dget k inner = Some v -> clean v)).
      { inversion C as [d A B|d A]; subst; [split; assumption|destruct (A _ eq_refl)]. }
      destruct IC as [IC1 IC2].
      assert (NA : dget kA (ps_dic s1) = None).
      { rewrite D1, dget_dset_other by discriminate. apply IC1. right. left. reflexivity. }
      assert (NS : dget kS (ps_dic s1) = None).
      { rewrite D1, dget_dset_other by discriminate. apply IC1. right. right. reflexivity. }
      assert (KI : wok (ps_dic s1) []).
      { split; try assumption; [|contradiction|constructor]. intros k v G. rewrite D1 in G.
        destruct (key_dec k kU) as [->|N]; [rewrite dget_dset_same in G; injection G as <-; apply cl_other; discriminate|].
        rewrite dget_dset_other in G by exact N. eauto. }
      assert (DI : ps_dic (set_dic (init_working (ps_dic s1)) s1) = wform (ps_dic s1) []).
      { cbn [set_dic ps_dic]. unfold init_working, wform. change (KStr $"__abbrevs") with kA. change (KStr $"__startidcs") with kS.
        rewrite (dset_new kA) by exact NA. rewrite dset_new; [rewrite <- app_assoc; reflexivity|].
        rewrite dget_app_none by exact NS. reflexivity. }
      destruct (H _ _ _ E3 _ _ KI DI) as (ab' & K' & D').
      pose proof (remove_wok _ _ _ _ K' D' E4) as D4.
      assert (U4 : ps_up s4 = ps_up s1).
      { pose proof (fk_up _ _ _ (proj2 (exec_frame en) _ _ _ _ E3)) as U3. cbn [set_dic ps_up] in U3. rewrite <- U3.
        unfold remove_working in E4. destruct (dget _ (ps_dic s3)) as [v|]; [|discriminate]. destruct v; try discriminate.
        destruct (del_names _ _); [|discriminate]. injection E4 as <-. reflexivity. }
      destruct a. exact (R _ _ U4 D4 E).
    - apply kept_guarded. unfold cycle_for_loop.
      apply keeps_bind; [exact kept_preorder|apply sdic_kept; repeat kstep|]. intros va.
      apply keeps_bind; [exact kept_preorder|apply sdic_kept; repeat kstep|]. intros vb.
      apply keeps_bind; [exact kept_preorder|apply sdic_kept; repeat kstep|]. intros za.
      apply keeps_bind; [exact kept_preorder|apply sdic_kept; repeat kstep|]. intros zb.
      intros s x s' E. destruct (lget v (ps_loops s)); [discriminate|].
      apply mbind_ok in E as ([] & s1 & E1 & E).
      assert (K1 : kept s s1).
      { clear E. revert s E1. induction (zrange za zb) as [|i r IH]; intros s E1; cbn [iterate] in E1.
        - injection E1 as <-. apply same_kept. reflexivity.
        - apply mbind_ok in E1 as ([] & s2 & E2 & E1). injection E2 as <-. apply mbind_ok in E1 as ([] & s2 & E2 & E1).
          apply (po_trans _ kept_preorder) with s2; [|apply IH; exact E1].
          apply (po_trans _ kept_preorder) with (set_loops ((v, i) :: ldel v (ps_loops s)) s); [apply same_kept; reflexivity|].
          exact (H _ _ _ E2). }
      apply (po_trans _ kept_preorder) with s1; [exact K1|]. apply same_kept. destruct (za <=? zb); injection E as _ <-; reflexivity.
    - apply kept_guarded. intros s a s' E. apply mbind_ok in E as (t & s1 & E1 & E).
      apply test_branch_state in E1. subst s1. destruct t; [exact (H _ _ _ E)|]. exact (H0 _ H1 _ _ _ E).
    - apply kept_guarded. intros s a s' E base abbrs K D. destruct a. exact (introduce_wok _ _ _ _ _ _ K D E).
    - apply keeps_ret. exact kept_preorder.
    - apply keeps_bind; [exact kept_preorder|apply kept_proceed|]. intros [|]; [|apply keeps_ret; exact kept_preorder].
      apply keeps_bind; [exact kept_preorder|exact H|]. intros _. exact H0.
    - exact H.
    - rewrite exec_rnil_eq. exact H.
    - intros s a s' E. apply mbind_ok in E as (t & s1 & E1 & E).
      apply test_branch_state in E1. subst s1. destruct t; [exact (H _ _ _ E)|]. exact (H0 _ H1 _ _ _ E).
  Qed.
End Kept.

Lemma set_ctrl_extra k z d d1 ok : set_ctrl_default k z d = (d1, ok) ->
  exists extra, d1 = d ++ extra /\ (extra = [] \/ extra = [(KStr k, vint z)]) /\ (dget (KStr k) d <> None -> extra = []).
Proof.
  unfold set_ctrl_default. destruct (dget (KStr k) d) eqn:E; intros H; injection H as <- <-.
  - exists []. rewrite app_nil_r. auto.
  - exists [(KStr k, vint z)]. rewrite dset_new by exact E. split; [reflexivity|]. split; [auto|]. intros N. destruct (N eq_refl).
Qed.

Lemma clean_app d k v : clean (VDict d) -> ~ working_key k -> clean v -> clean (VDict (d ++ [(k, v)])).
Proof.
  intros C NW CV. inversion C as [d0 A B|d0 A]; subst; [|destruct (A _ eq_refl)]. apply cl_dict.
  - intros k' W'. rewrite dget_app_none by (apply A; exact W'). cbn [dget]. rewrite key_eqb_neq; [reflexivity|]. intros <-. exact (NW W').
  - intros k' w H. destruct (dget k' d) eqn:E; [rewrite (dget_app_some _ _ _ _ E) in H; injection H as <-; eauto|].
    rewrite dget_app_none in H by exact E. cbn [dget] in H. destruct (key_eqb k' k); [injection H as <-; exact CV|discriminate].
Qed.

Theorem write_keeps en explain b o mf mt d r d' : e_write en = true -> clean (VDict d) ->
  write_recipe en explain b o mf mt d = (Ok r, d') ->
  exists extra, d' = d ++ extra /\ (forall k v, In (k, v) extra -> (k = KStr $"MF" /\ v = vint mf) \/ (k = KStr $"MT" /\ v = vint mt)) /\
    (dget (KStr $"MF") d <> None -> dget (KStr $"MT") d <> None -> extra = []).
Proof.
  intros W C H. unfold write_recipe in H. destruct (set_ctrl_default $"MF" mf d) as [d1 ok1] eqn:E1.
  destruct ok1; [|discriminate]. destruct (set_ctrl_default $"MT" mt d1) as [d2 ok2] eqn:E2. destruct ok2; [|discriminate].
  cbn [negb] in H. destruct (run_section en b (reset_state o [] d2)) as [[[]|e] s] eqn:R; [|destruct (unwind _ _ _); discriminate].
  destruct (set_ctrl_extra _ _ _ _ _ E1) as (x1 & -> & X1 & Y1). destruct (set_ctrl_extra _ _ _ _ _ E2) as (x2 & -> & X2 & Y2).
  assert (C1 : clean (VDict (d ++ x1))).
  { destruct X1 as [->| ->]; [rewrite app_nil_r; exact C|]. apply clean_app; [exact C| |apply cl_other; discriminate].
    intros [Q|[Q|Q]]; discriminate Q. }
  assert (C2 : clean (VDict ((d ++ x1) ++ x2))).
  { destruct X2 as [->| ->]; [rewrite app_nil_r; exact C1|]. apply clean_app; [exact C1| |apply cl_other; discriminate].
    intros [Q|[Q|Q]]; discriminate Q. }
  set (d2 := (d ++ x1) ++ x2) in *. inversion C2 as [d0 A B|d0 A]; subst d0; [|destruct (A _ eq_refl)].
  assert (NA : dget kA d2 = None) by (apply A; right; left; reflexivity).
  assert (NS : dget kS d2 = None) by (apply A; right; right; reflexivity).
  unfold run_section in R. apply mbind_ok in R as ([] & s1 & R1 & R). injection R1 as <-.
  apply mbind_ok in R as ([] & s2 & R2 & R).
  assert (KI : wok d2 []) by (split; try assumption; [contradiction|constructor]).
  assert (DI : ps_dic (set_dic (init_working (ps_dic (reset_state o [] d2))) (reset_state o [] d2)) = wform d2 []).
  { cbn [set_dic ps_dic reset_state]. unfold init_working, wform. change (KStr $"__abbrevs") with kA. change (KStr $"__startidcs") with kS.
    rewrite (dset_new kA) by exact NA. rewrite dset_new; [rewrite <- app_assoc; reflexivity|].
    rewrite dget_app_none by exact NS. reflexivity. }
  destruct (proj1 (proj2 (exec_kept en W)) _ _ _ _ R2 _ _ KI DI) as (ab' & K' & D').
  pose proof (remove_wok _ _ _ _ K' D' R) as D4.
  assert (U4 : ps_up s = []).
  { pose proof (fk_up _ _ _ (proj2 (exec_frame en) _ _ _ _ R2)) as U3. cbn [set_dic ps_up reset_state] in U3. rewrite <- U3.
    unfold remove_working in R. destruct (dget _ (ps_dic s2)) as [v|]; [|discriminate]. destruct v; try discriminate.
    destruct (del_names _ _); [|discriminate]. injection R as <-. reflexivity. }
  rewrite U4, D4 in H. cbn [unwind] in H. injection H as _ <-. unfold d2. exists (x1 ++ x2). split; [symmetry; apply app_assoc|]. split.
  - intros k v I. apply in_app_iff in I as [I|I]; [destruct X1 as [->| ->]|destruct X2 as [->| ->]]; try contradiction; destruct I as [I|[]]; injection I as <- <-; auto.
  - intros M1 M2. rewrite (Y1 M1), Y2; [reflexivity|]. rewrite (Y1 M1), app_nil_r. exact M2.
Qed.
