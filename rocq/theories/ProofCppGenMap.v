(** Fields of records, expressions and conditions of the generated C++ functions and of the Python
    interpreter. *)
From Coq Require Import Ascii String ZArith Bool Lia List.
From Verif Require Import PyBase ProofPyBase PyFloat ModelFortran ModelRecords ModelNum ModelRecipe ModelInterp
  ModelCpp ModelCppTab ModelCppArr SpecCpp SpecCppTab SpecCppRead ModelCppGen SpecCppGen.
From Verif Require Import ProofInterp ProofInterpSec ProofInterpFrame ProofInterpMap.
From Verif Require Import ProofCppArr ProofCppGenRead.
Import ListNotations.
Open Scope Z_scope.

Lemma seq_ne a b : a <> b -> str_eqb a b = false.
Proof. apply ProofPyBase.str_eqb_neq. Qed.
Lemma seq_neq a b : str_eqb a b = false -> a <> b.
Proof. apply ProofPyBase.str_eqb_neq. Qed.

(** ** Kinds *)

Definition sub (a b : vars) : Prop := forall x k, kget x a = Some k -> kget x b = Some k.
Lemma sub_refl a : sub a a. Proof. intros x k H. exact H. Qed.
Lemma sub_trans a b c : sub a b -> sub b c -> sub a c. Proof. intros H G x k K. auto. Qed.

Lemma kind_eqb_eq a b : kind_eqb a b = true -> a = b.
Proof. destruct a as [[]|[]| |], b as [[]|[]| |]; intros H; try discriminate H; reflexivity. Qed.

Lemma kget_app x a b : kget x (a ++ b) = match kget x a with Some k => Some k | None => kget x b end.
Proof. induction a as [|[y k] a IH]; [reflexivity|]. cbn [app kget]. destruct (str_eqb x y); auto. Qed.
Lemma kadd_sub x k a : sub a (kadd x k a).
Proof. intros y j H. unfold kadd. destruct (kget x a); auto. now rewrite kget_app, H. Qed.
Lemma kadd_get x k a : kget x a = None -> kget x (kadd x k a) = Some k.
Proof. intros H. unfold kadd. rewrite H, kget_app, H. cbn [kget]. now rewrite str_eqb_refl. Qed.
Lemma kadd_inv y x k a j : kget y (kadd x k a) = Some j -> kget y a = Some j \/ (y = x /\ j = k).
Proof.
  unfold kadd. destruct (kget x a) eqn:E; [auto|]. rewrite kget_app. destruct (kget y a) eqn:G; [auto|]. cbn [kget].
  destruct (str_eqb y x) eqn:Y; [|discriminate]. apply str_eqb_eq in Y. intros H. injection H as <-. auto.
Qed.

(** ** Containers *)

Lemma vget_vset_same {A} x (c : A) l : vget x (vset x c l) = Some c.
Proof.
  induction l as [|[y d] l IH]; cbn [vset vget]; [now rewrite str_eqb_refl|].
  destruct (str_eqb x y) eqn:E; cbn [vget]; rewrite E; auto.
Qed.
Lemma vget_vset_other {A} x y (c : A) l : x <> y -> vget x (vset y c l) = vget x l.
Proof.
  intros N. induction l as [|[z d] l IH]; cbn [vset vget].
  - now rewrite (seq_ne x y N).
  - destruct (str_eqb y z) eqn:E; cbn [vget].
    + apply str_eqb_eq in E. subst z. now rewrite (seq_ne x y N).
    + now rewrite IH.
Qed.
Lemma vset_names {A} x (c : A) l y : In y (map fst (vset x c l)) <-> y = x \/ In y (map fst l).
Proof.
  induction l as [|[z d] l IH]; cbn [vset map fst In]; [intuition|].
  destruct (str_eqb x z) eqn:E; cbn [map fst In].
  - apply str_eqb_eq in E. subst z. intuition.
  - rewrite IH. intuition.
Qed.
Lemma vset_nodup {A} x (c : A) l : NoDup (map fst l) -> NoDup (map fst (vset x c l)).
Proof.
  induction l as [|[z d] l IH]; cbn [vset map fst]; intros N; [constructor; [intros []|constructor]|].
  inversion N as [|? ? N1 N2]; subst. destruct (str_eqb x z) eqn:E; cbn [map fst]; [constructor; auto|].
  constructor; [|auto]. rewrite vset_names. intros [->|I]; [|contradiction]. now rewrite str_eqb_refl in E.
Qed.
Lemma dset_keys k v d j : In j (map fst (dset k v d)) <-> j = k \/ In j (map fst d).
Proof.
  induction d as [|[z w] d IH]; cbn [dset map fst In]; [intuition|].
  destruct (key_eqb k z) eqn:E; cbn [map fst In].
  - apply key_eqb_eq in E. subst z. intuition.
  - rewrite IH. intuition.
Qed.
Lemma dset_nodup k v (d : dict) : NoDup (map fst d) -> NoDup (map fst (dset k v d)).
Proof.
  induction d as [|[z w] d IH]; cbn [dset map fst]; intros N; [constructor; [intros []|constructor]|].
  inversion N as [|? ? N1 N2]; subst. destruct (key_eqb k z) eqn:E; cbn [map fst]; [constructor; auto|].
  constructor; [|auto]. rewrite dset_keys. intros [->|I]; [|contradiction]. now rewrite key_eqb_refl in E.
Qed.
Lemma vget_nodup_in {A} x (c : A) l : NoDup (map fst l) -> In (x, c) l -> vget x l = Some c.
Proof.
  induction l as [|[y d] l IH]; cbn [map fst vget]; intros N I; [destruct I|]. inversion N as [|? ? N1 N2]; subst.
  destruct I as [I|I]; [injection I as -> ->; now rewrite str_eqb_refl|].
  destruct (str_eqb x y) eqn:E; [|auto]. apply str_eqb_eq in E. subst y. exfalso. apply N1. now apply (in_map fst) in I.
Qed.

(** ** Values *)

Lemma alike_no_expr v w : alike_val v w -> forall a, v <> VExpr a.
Proof. intros H a E. subst v. inversion H. Qed.
Lemma alike_int v z : alike_val v (VNum (NInt z)) -> v = vint z.
Proof. intros H. inversion H; subst. cbn in H2. subst. reflexivity. Qed.
Lemma alike_empty : alike_val (VDict []) (VDict []).
Proof. constructor; [intros k; split; auto|intros k v w H; discriminate H]. Qed.
Lemma alike_dset d e k v w : alike_val (VDict d) (VDict e) -> alike_val v w -> alike_val (VDict (dset k v d)) (VDict (dset k w e)).
Proof.
  intros H V. inversion H as [| | |d0 e0 H1 H2]; subst. constructor.
  - intros j. destruct (key_eqb j k) eqn:E.
    + apply key_eqb_eq in E. subst j. rewrite !dget_dset_same. split; discriminate.
    + assert (j <> k) by (intros ->; now rewrite key_eqb_refl in E). now rewrite !dget_dset_other by auto.
  - intros j a b. destruct (key_eqb j k) eqn:E.
    + apply key_eqb_eq in E. subst j. rewrite !dget_dset_same. intros A B. injection A as <-. injection B as <-. exact V.
    + assert (j <> k) by (intros ->; now rewrite key_eqb_refl in E). rewrite !dget_dset_other by auto. apply H2.
Qed.

(** an array of Python and a NestedVector with one index *)
Definition arr_rel (v : val) (n : nvec) : Prop :=
  exists s pv cv, v = VDict (number s pv) /\ n = Vec s (s + Z.of_nat (length cv) - 1) (map Cell cv) /\ cv <> [] /\ 0 <= s /\
    Forall2 alike_val pv cv.
Definition cell_rel (v : val) (c : cell) : Prop :=
  match c with CScal w => alike_val v w | CArr n => arr_rel v n end.
Lemma cell_no_expr v c : cell_rel v c -> forall a, v <> VExpr a.
Proof.
  destruct c as [w|n]; [apply alike_no_expr|]. intros (s & pv & cv & -> & _) a. discriminate.
Qed.
Lemma Forall2_nthz pv cv k : Forall2 alike_val pv cv ->
  match nthz pv k, nthz cv k with Some a, Some b => alike_val a b | None, None => True | _, _ => False end.
Proof.
  intros F. unfold nthz. destruct (k <? 0); [exact Logic.I|]. revert F. generalize (Z.to_nat k). clear k. intros k F. revert k.
  induction F; intros [|k]; cbn [nth_error]; try exact Logic.I; auto. apply IHF.
Qed.
Lemma nthz_range {A} (l : list A) k : nthz l k <> None <-> 0 <= k < Z.of_nat (length l).
Proof.
  unfold nthz. destruct (Z.ltb_spec k 0); [split; [congruence|lia]|]. rewrite nth_error_Some. lia.
Qed.
(** an element has been read by both or by none *)
Lemma arr_at v n i : arr_rel v n ->
  exists d, v = VDict d /\
  (nv_contains i n = true -> exists a b, dget (KInt i) d = Some a /\ nv_get [i] n = Val b /\ alike_val a b) /\
  (nv_contains i n = false -> dget (KInt i) d = None).
Proof.
  intros (s & pv & cv & -> & -> & NE & S & F). exists (number s pv). split; [reflexivity|].
  assert (LN : length pv = length cv) by (clear - F; induction F; cbn; auto).
  pose proof (Forall2_nthz pv cv (i - s) F) as M. cbn [nv_contains]. rewrite dget_number. split; intros C.
  - apply andb_true_iff in C as [C1 C2]. apply Z.leb_le in C1, C2.
    assert (R : nthz cv (i - s) <> None) by (apply nthz_range; lia).
    destruct (nthz cv (i - s)) as [b|] eqn:B; [|congruence]. destruct (nthz pv (i - s)) as [a|]; [|contradiction].
    exists a, b. split; [reflexivity|]. split; [|exact M]. cbn [nv_get]. unfold nv_at. cbn [nv_contains].
    replace (s <=? i) with true by (symmetry; apply Z.leb_le; lia).
    replace (i <=? s + Z.of_nat (length cv) - 1) with true by (symmetry; apply Z.leb_le; lia). cbn [andb].
    unfold in_size. rewrite map_length.
    replace (0 <=? i - s) with true by (symmetry; apply Z.leb_le; lia).
    replace (i - s <? Z.of_nat (length cv)) with true by (symmetry; apply Z.ltb_lt; lia). cbn [andb].
    unfold nthz in B. destruct (i - s <? 0); [discriminate|]. rewrite nth_error_map, B. reflexivity.
  - destruct (nthz pv (i - s)) as [a|] eqn:A; [|reflexivity]. exfalso.
    assert (R : nthz pv (i - s) <> None) by congruence. apply nthz_range in R.
    assert (X : (s <=? i) && (i <=? s + Z.of_nat (length cv) - 1) = true) by (apply andb_true_iff; rewrite !Z.leb_le; lia). congruence.
Qed.

(** ** A section in both programs *)

Definition working : list str := [$"__up"; $"__abbrevs"; $"__startidcs"].
Definition fits (k : kind) (c : cell) : Prop :=
  match k, c with KScal _, CScal _ | KTab, CScal _ | KArr _, CArr _ => True | _, _ => False end.

(** [F]: the variables that the generator finds in the section in the end; [sp]: names that are not
    compared; [wk]: the entries of the interpreter in the dictionary *)
Record frel (sp : list str) (wk : str -> option val) (F : vars) (d : dict) (f : cframe) : Prop := {
  fr_int : forall z, dget (KInt z) d = None;
  fr_cint : forall z, dget (KInt z) (cf_dict f) = None;
  fr_entry : forall x, ~ In x sp ->
    match vget x (cf_vars f) with
    | Some c => exists v, dget (KStr x) d = Some v /\ cell_rel v c
    | None => match dget (KStr x) (cf_dict f) with
              | Some w => exists v, dget (KStr x) d = Some v /\ alike_val v w
              | None => dget (KStr x) d = None
              end
    end;
  fr_cell : forall x c, vget x (cf_vars f) = Some c -> exists k, kget x F = Some k /\ fits k c;
  fr_sec : forall x v, dget (KStr x) (cf_dict f) = Some v -> kget x F = Some KSec;
  fr_keys : NoDup (map fst d);
  fr_names : NoDup (map fst (cf_vars f));
  fr_sp : forall x, In x working -> In x sp;
  fr_work : forall x, In x working -> dget (KStr x) d = wk x }.

Lemma frel_none sp wk F d f x : frel sp wk F d f -> kget x F = None -> ~ In x sp -> dget (KStr x) d = None.
Proof.
  intros R K S. pose proof (fr_entry _ _ _ _ _ R x S) as E. destruct (vget x (cf_vars f)) as [c|] eqn:V.
  { destruct (fr_cell _ _ _ _ _ R x c V) as (k & K' & _). congruence. }
  destruct (dget (KStr x) (cf_dict f)) as [w|] eqn:D; [|exact E]. apply (fr_sec _ _ _ _ _ R) in D. congruence.
Qed.
Lemma frel_var sp wk F d f x k : frel sp wk F d f -> kget x F = Some k -> k <> KSec -> ~ In x sp ->
  match vget x (cf_vars f) with
  | Some c => exists v, dget (KStr x) d = Some v /\ cell_rel v c /\ fits k c
  | None => dget (KStr x) d = None
  end.
Proof.
  intros R K S N. pose proof (fr_entry _ _ _ _ _ R x N) as E. destruct (vget x (cf_vars f)) as [c|] eqn:V.
  - destruct E as (v & E1 & E2). destruct (fr_cell _ _ _ _ _ R x c V) as (k' & K' & Fi).
    exists v. split; [exact E1|]. split; [exact E2|]. assert (k' = k) by congruence. now subst.
  - destruct (dget (KStr x) (cf_dict f)) as [w|] eqn:D; [|exact E]. apply (fr_sec _ _ _ _ _ R) in D. congruence.
Qed.
Lemma frel_set sp wk F d f x k v c : frel sp wk F d f -> kget x F = Some k -> fits k c -> ~ In x sp -> cell_rel v c ->
  frel sp wk F (dset (KStr x) v d) (set_cell x c f).
Proof.
  intros R K Fi N C. split; cbn [set_cell cf_vars cf_dict].
  - intros z. rewrite dget_dset_other by discriminate. apply (fr_int _ _ _ _ _ R).
  - apply (fr_cint _ _ _ _ _ R).
  - intros y Y. destruct (str_eqb y x) eqn:E.
    + apply str_eqb_eq in E. subst y. rewrite vget_vset_same, dget_dset_same. eauto.
    + assert (y <> x) by (now apply seq_neq). rewrite vget_vset_other by auto.
      rewrite dget_dset_other by congruence. now apply (fr_entry _ _ _ _ _ R).
  - intros y c'. destruct (str_eqb y x) eqn:E.
    + apply str_eqb_eq in E. subst y. rewrite vget_vset_same. intros H. injection H as <-. eauto.
    + assert (y <> x) by (now apply seq_neq). rewrite vget_vset_other by auto. apply (fr_cell _ _ _ _ _ R).
  - apply (fr_sec _ _ _ _ _ R).
  - apply dset_nodup, (fr_keys _ _ _ _ _ R).
  - apply vset_nodup, (fr_names _ _ _ _ _ R).
  - apply (fr_sp _ _ _ _ _ R).
  - intros y Y. rewrite dget_dset_other; [now apply (fr_work _ _ _ _ _ R)|]. intros E. injection E as E. apply N. rewrite <- E.
    now apply (fr_sp _ _ _ _ _ R).
Qed.
Lemma frel_ext sp wk F d d' f : frel sp wk F d f -> (forall k, dget k d' = dget k d) -> NoDup (map fst d') -> frel sp wk F d' f.
Proof.
  intros R E N. split; try apply R; auto.
  - intros z. rewrite E. apply R.
  - intros x X. rewrite E. now apply (fr_entry _ _ _ _ _ R).
  - intros v V. rewrite E. now apply R.
Qed.

(** ** Assignment *)

Lemma set_indexed_one i v d : set_indexed [i] v (VDict d) = Ok (VDict (dset (KInt i) v d)).
Proof. reflexivity. Qed.

Definition loops_ok (lv : list str) (L : list (str * Z)) : Prop := map fst L = lv /\ Forall (fun p => 0 <= snd p) L.
Lemma lget_known x lv L : loops_ok lv L -> known x lv = false -> lget x L = None.
Proof.
  intros [<- _] K. unfold known in K. induction L as [|[y i] L IH]; [reflexivity|]. cbn [map fst existsb lget] in *.
  apply orb_false_iff in K as [-> K]. auto.
Qed.
Lemma lget_some x L i : lget x L = Some i -> In (x, i) L.
Proof.
  induction L as [|[y j] L IH]; [discriminate|]. cbn [lget]. destruct (str_eqb x y) eqn:E; [|right; auto].
  apply str_eqb_eq in E. subst. intros H. injection H as ->. now left.
Qed.
Lemma index_both lv L q i : loops_ok lv L -> index_ok lv q = true -> index_value L q = Val i -> get_indexvalue L q = Ok i /\ 0 <= i.
Proof.
  intros [_ P] I H. destruct q as [x|[z| |]]; cbn [index_ok index_value get_indexvalue] in *; try discriminate.
  - destruct (lget x L) as [j|] eqn:E; [|discriminate]. injection H as ->. split; [reflexivity|].
    apply lget_some in E. rewrite Forall_forall in P. apply (P _ E).
  - injection H as ->. split; [reflexivity|]. now apply Z.leb_le.
Qed.
Lemma indices_inv lv ix b : indices_ok lv ix = Some b -> (ix = [] /\ b = false) \/ exists q, ix = [q] /\ b = true /\ index_ok lv q = true.
Proof.
  destruct ix as [|q [|]]; cbn [indices_ok]; intros H; [injection H as <-; auto| |discriminate].
  destruct (index_ok lv q) eqn:E; [|discriminate]. injection H as <-. right. eauto.
Qed.

(** whether a variable has been read *)
Lemma did_read_both sp wk F d f lv L x ix arr t b : frel sp wk F d f -> loops_ok lv L -> ~ In x sp ->
  indices_ok lv ix = Some arr -> kget x F = Some (var_kind arr t) -> did_read L f x ix = Val b ->
  forall lu sc, sc_loops sc = L -> lget x L = None ->
  (if lu : bool then find_up x (sc_dic sc) (sc_up sc) else dget (KStr x) (sc_dic sc)) = dget (KStr x) d ->
  if b then exists v w, get_raw sc lu x ix = Ok v /\ cell_value L f x ix = Val w /\ alike_val v w
  else exists er, get_raw sc lu x ix = Err er /\ missing true er = true.
Proof.
  intros R LO N I K D lu sc SL LG FU. unfold get_raw. rewrite SL, LG, FU.
  assert (NS : var_kind arr t <> KSec) by (destruct arr; discriminate).
  pose proof (frel_var _ _ _ _ _ _ _ R K NS N) as E. apply indices_inv in I as [[-> ->]|(q & -> & -> & Q)]; cbn [did_read cell_value] in *.
  - destruct (vget x (cf_vars f)) as [c|]; injection D as <-.
    + destruct E as (v & -> & C & Fi). destruct c as [w|n]; [|contradiction]. exists v, w. auto.
    + rewrite E. exists (VariableNotFoundError x). split; reflexivity.
  - destruct (index_value L q) as [i| |] eqn:IV; try discriminate. cbn [cbind] in *.
    destruct (index_both lv L q i LO Q IV) as [GI _].
    destruct (vget x (cf_vars f)) as [c|].
    + destruct E as (v & -> & C & Fi). destruct c as [w|n]; [contradiction|]. injection D as <-. cbn [cell_rel] in C.
      destruct (arr_at v n i C) as (dv & -> & A1 & A2). cbn [mapM]. rewrite GI. cbn [bind array_get].
      destruct (nv_contains i n).
      * destruct (A1 eq_refl) as (a & b & -> & -> & AB). exists a, b. auto.
      * rewrite (A2 eq_refl). exists UnavailableIndexError. split; reflexivity.
    + injection D as <-. rewrite E. exists (VariableNotFoundError x). split; reflexivity.
Qed.

Lemma assign_both sp wk F d f lv L x ix arr t v w f' s : frel sp wk F d f -> loops_ok lv L -> ~ In x sp ->
  indices_ok lv ix = Some arr -> kget x F = Some (var_kind arr t) -> did_read L f x ix = Val false ->
  assign L f x ix w = Val f' -> alike_val v w -> ps_dic s = d -> ps_loops s = L ->
  exists d', set_var (x, ix) v s = (Ok tt, set_dic d' s) /\ frel sp wk F d' f'.
Proof.
  intros R LO N I K D A V PD PL. assert (NS : var_kind arr t <> KSec) by (destruct arr; discriminate).
  pose proof (frel_var _ _ _ _ _ _ _ R K NS N) as E. subst d L. cbn [set_var].
  apply indices_inv in I as [[-> ->]|(q & -> & -> & Q)]; cbn [did_read assign] in *.
  - injection A as <-. eexists. split; [reflexivity|]. eapply frel_set; eauto; try exact Logic.I.
  - destruct (index_value (ps_loops s) q) as [i| |] eqn:IV; try discriminate. cbn [cbind] in *.
    destruct (index_both lv _ q i LO Q IV) as [GI P]. cbn [mapM]. rewrite GI. cbn [bind].
    destruct (vget x (cf_vars f)) as [c|].
    + destruct E as (pv & -> & C & Fi). destruct c as [u|n]; [contradiction|]. cbn [cell_rel] in C. injection D as D.
      destruct C as (z & ps & cv & -> & -> & NE & Z0 & F2).
      assert (LN : length ps = length cv) by (clear - F2; induction F2; cbn; auto).
      cbn [nv_assign nv_set] in A. rewrite map_length in A.
      assert (LE : (0 < length cv)%nat) by (destruct cv; [congruence|cbn; lia]).
      replace (z + Z.of_nat (length cv) - 1 =? -1) with false in A by (symmetry; apply Z.eqb_neq; lia).
      cbn [nv_contains] in D. destruct (Z.eqb_spec i (z + Z.of_nat (length cv))) as [IE|IE].
      * cbn [cbind] in A. injection A as <-. rewrite set_indexed_one, dset_number_end by lia.
        eexists. split; [reflexivity|]. eapply frel_set; eauto; try exact Logic.I. cbn [cell_rel].
        exists z, (ps ++ [v]), (cv ++ [w]). split; [reflexivity|]. split; [|split; [|split; [exact Z0|apply Forall2_app; auto]]].
        -- rewrite map_app, app_length. cbn [map length]. f_equal. lia.
        -- destruct cv; discriminate.
      * exfalso. unfold in_size in A. destruct ((0 <=? i - z) && (i - z <? Z.of_nat (length cv))) eqn:IS; [|discriminate A].
        apply andb_true_iff in IS as [I1 I2]. apply Z.leb_le in I1. apply Z.ltb_lt in I2.
        assert (X : (z <=? i) && (i <=? z + Z.of_nat (length cv) - 1) = true) by (apply andb_true_iff; rewrite !Z.leb_le; lia). congruence.
    + rewrite E. cbn [nv_assign nv_set nv_empty length] in A. change (-1 =? -1) with true in A. cbn [cbind Z.of_nat] in A.
      rewrite Z.add_0_r, Z.eqb_refl in A. cbn [cbind app] in A. injection A as <-.
      eexists. split; [reflexivity|]. eapply frel_set; eauto; try exact Logic.I. cbn [cell_rel].
      exists i, [v], [w]. split; [reflexivity|]. split; [cbn [length map]; f_equal; lia|]. split; [discriminate|]. split; [exact P|]. constructor; auto.
Qed.

(** only the variables of the innermost section have changed *)
Definition cur_only (s s' : cstate) : Prop := k_lines s' = k_lines s /\ k_up s' = k_up s /\ k_loops s' = k_loops s.
Lemma cur_only_refl s : cur_only s s. Proof. repeat split. Qed.
Lemma cur_only_trans a b c : cur_only a b -> cur_only b c -> cur_only a c.
Proof. intros (A & B & C) (D & E & G). repeat split; congruence. Qed.

Lemma reg_plan_sub t cur p : sub cur (reg_plan t cur p).
Proof. destruct p; cbn [reg_plan]; try apply sub_refl; apply kadd_sub. Qed.

Lemma field_both en o sp wk F up lv cur t e p v w s st a s' st' :
  plan_of up lv cur t e = Some p -> (forall x, In x (field_name e) -> ~ In x sp) ->
  sub (reg_plan t cur p) F -> frel sp wk F (ps_dic s) (k_cur st) -> k_loops st = ps_loops s -> loops_ok lv (ps_loops s) ->
  map_field en (VNum v) e s = (Ok a, s') -> run_plan o e w p st = Val st' -> num_alike v w -> Forall regular_note (k_notes st') ->
  a = false /\ (exists d', s' = set_dic d' s) /\ frel sp wk F (ps_dic s') (k_cur st') /\ cur_only st st'.
Proof.
  intros PO HN SF R KL LO MF RP VW NT.
  assert (SELF : set_dic (ps_dic s) s = s) by (destruct s; reflexivity).
  assert (VAR : forall x ix, plan_var up lv cur t x ix = Some p -> ~ In x sp ->
     (forall cast, eval_expr (e_depth en) (scope_of s) false cast true e = eval_var (e_depth en) (scope_of s) false cast true x ix) ->
     a = false /\ (exists d', s' = set_dic d' s) /\ frel sp wk F (ps_dic s') (k_cur st') /\ cur_only st st').
  { clear PO HN. intros x ix PV NS EE. unfold plan_var in PV. destruct (known x lv) eqn:KN; [discriminate|].
    pose proof (lget_known x lv _ LO KN) as LG.
    destruct (indices_ok lv ix) as [arr|] eqn:IX; [|discriminate].
    assert (KF : kget x F = Some (var_kind arr t) /\ (p = Assign x ix \/ p = AssignOrCheck x ix)).
    { assert (VK : var_kind (match ix with [] => false | _ => true end) t = var_kind arr t)
        by (apply indices_inv in IX as [[-> ->]|(q & -> & -> & _)]; reflexivity).
      destruct (resolve x (cur :: up)) as [[n k]|] eqn:RS.
      - destruct (kind_eqb k (var_kind arr t)) eqn:KE; [|discriminate]. injection PV as <-. apply kind_eqb_eq in KE. subst k.
        split; [|auto]. apply SF. cbn [reg_plan]. rewrite VK. cbn [resolve] in RS. unfold kadd. destruct (kget x cur) as [k|] eqn:KC.
        + congruence.
        + rewrite kget_app, KC. cbn [kget]. now rewrite str_eqb_refl.
      - injection PV as <-. split; [|auto]. apply SF. cbn [reg_plan]. rewrite VK. apply kadd_get.
        cbn [resolve] in RS. destruct (kget x cur); [discriminate|reflexivity]. }
    destruct KF as [KF PP].
    assert (SEEN : forall b, did_read (k_loops st) (k_cur st) x ix = Val b ->
      if b then exists pv cw, get_raw (scope_of s) false x ix = Ok pv /\ cell_value (k_loops st) (k_cur st) x ix = Val cw /\ alike_val pv cw
      else exists er, get_raw (scope_of s) false x ix = Err er /\ missing true er = true).
    { intros b D. rewrite KL in *. eapply (did_read_both sp wk F (ps_dic s) (k_cur st) lv (ps_loops s) x ix arr t b); eauto. }
    unfold map_field in MF. rewrite EE in MF. unfold eval_var in MF.
    assert (NEW : forall f', did_read (k_loops st) (k_cur st) x ix = Val false -> assign (k_loops st) (k_cur st) x ix (VNum w) = Val f' ->
       a = false /\ (exists d', s' = set_dic d' s) /\ frel sp wk F (ps_dic s') f').
    { intros f' D A. destruct (SEEN false D) as (er & GR & MI). rewrite GR in MF. cbn [bind] in MF. rewrite MI in MF.
      change (solve (negb (o_all (ps_opts s))) (vint 0) (vint 1) (VNum v)) with (Ok (VNum v)) in MF.
      rewrite KL in *.
      destruct (assign_both sp wk F (ps_dic s) (k_cur st) lv (ps_loops s) x ix arr t (VNum v) (VNum w) f' s R LO NS IX KF D A (alike_num _ _ VW) eq_refl eq_refl)
        as (d' & SV & R'). unfold mbind in MF. rewrite SV in MF. unfold ret in MF. injection MF as <- <-. split; [reflexivity|]. split; [eauto|exact R']. }
    assert (OLD : did_read (k_loops st) (k_cur st) x ix = Val true -> a = false /\ s' = s).
    { intros D. destruct (SEEN true D) as (pv & cw & GR & _ & AV). rewrite GR in MF. cbn [bind] in MF.
      pose proof (alike_no_expr _ _ AV) as NE.
      assert (MF' : (if negb (coef0 (vint 0)) then (Err AssertionError, s) else
                     match check_value (ps_opts s) e (VNum v) pv with Ok _ => (Ok false, s) | Err er => (Err er, s) end) = (Ok a, s')).
      { destruct pv; try exact MF. exfalso. exact (NE e0 eq_refl). }
      change (negb (coef0 (vint 0))) with false in MF'. cbn iota in MF'.
      destruct (check_value _ _ _ _); [injection MF' as <- <-; auto|discriminate]. }
    destruct PP as [->| ->]; cbn [run_plan] in RP.
    - destruct (did_read (k_loops st) (k_cur st) x ix) as [b| |] eqn:D; try discriminate. cbn [cbind] in RP.
      destruct (assign (k_loops st) (k_cur st) x ix (VNum w)) as [f'| |] eqn:A; try discriminate. cbn [cbind] in RP. injection RP as <-.
      destruct b.
      { exfalso. cbn [with_notes k_notes with_cur] in NT. apply Forall_app in NT as [_ NT]. inversion NT; subst. assumption. }
      destruct (NEW f' eq_refl eq_refl) as (-> & X & Y). split; [reflexivity|]. split; [exact X|]. split; [exact Y|]. repeat split.
    - destruct (did_read (k_loops st) (k_cur st) x ix) as [b| |] eqn:D; try discriminate. cbn [cbind] in RP.
      destruct b.
      + destruct (OLD eq_refl) as [-> ->]. destruct (cell_value _ _ _ _) as [u| |]; try discriminate. cbn [cbind] in RP.
        destruct (check_against o e u w) as [[]| |]; try discriminate. cbn [cbind] in RP. injection RP as <-.
        split; [reflexivity|]. split; [now exists (ps_dic s)|]. split; [exact R|]. apply cur_only_refl.
      + destruct (assign (k_loops st) (k_cur st) x ix (VNum w)) as [f'| |] eqn:A; try discriminate. cbn [cbind] in RP. injection RP as <-.
        destruct (NEW f' eq_refl eq_refl) as (-> & X & Y). split; [reflexivity|]. split; [exact X|]. split; [exact Y|]. repeat split. }
  destruct e as [x ix|x ix|dz n| | | | | |]; cbn [plan_of] in PO; try discriminate.
  - apply (VAR x ix); auto; [apply HN; now left|]. intros cast. now rewrite eval_expr_eq.
  - apply (VAR x ix); auto; [apply HN; now left|]. intros cast. now rewrite eval_expr_eq.
  - assert (PC : p = Check n) by (destruct n; congruence). subst p. cbn [run_plan] in RP.
    destruct (check_against _ _ _ _) as [[]| |]; try discriminate. cbn [cbind] in RP. injection RP as <-.
    unfold map_field in MF. rewrite eval_expr_eq in MF. cbn iota zeta in MF. change (negb (coef0 (vint 0))) with false in MF. cbn iota in MF.
    destruct (check_value _ _ _ _); [injection MF as <- <-|discriminate].
    split; [reflexivity|]. split; [now exists (ps_dic s)|]. split; [exact R|]. apply cur_only_refl.
Qed.
