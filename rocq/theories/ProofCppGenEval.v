(** Names of enclosing sections, integer expressions and conditions of the generated C++ functions
    and of the Python interpreter. *)
From Coq Require Import Ascii String ZArith Bool Lia List.
From Verif Require Import PyBase ProofPyBase PyFloat ModelFortran ModelRecords ModelNum ModelRecipe ModelInterp
  ModelCpp ModelCppTab ModelCppArr SpecCpp SpecCppTab SpecCppRead ModelCppGen SpecCppGen.
From Verif Require Import ProofInterp ProofInterpSec ProofInterpFrame ProofInterpMap.
From Verif Require Import ProofCppGenRead ProofCppGenMap.
Import ListNotations.
Open Scope Z_scope.

(** ** Enclosing sections *)

Inductive ups : list vars -> list frame -> list cframe -> Prop :=
| ups_nil : ups [] [] []
| ups_cons wk F Fs f up c cs : frel working wk F (fr_dic f) c -> kget (fr_name f) F = Some KSec -> ups Fs up cs ->
    ups (F :: Fs) (f :: up) (c :: cs).

(** [N]: the names given values in the innermost section, [U]: those that are looked up; they
    are names of one section only *)
Record ctx (F : vars) (Fs : list vars) (N U outer : list str) : Prop := {
  cx_sep : forall m n G H x k j, In x U -> nth_error (F :: Fs) m = Some G -> nth_error (F :: Fs) n = Some H ->
    kget x G = Some k -> kget x H = Some j -> m = n;
  cx_out : forall G x k, In G (F :: Fs) -> kget x G = Some k -> In x outer;
  cx_plain : forall G x k, In G (F :: Fs) -> kget x G = Some k -> ~ In x working;
  cx_work : forall x, In x N -> ~ In x working }.

Lemma resolve_at x : forall fs Gs n k, Forall2 sub fs Gs -> resolve x fs = Some (n, k) ->
  exists G, nth_error Gs n = Some G /\ kget x G = Some k.
Proof.
  induction fs as [|f fs IH]; intros Gs n k S R; [discriminate|]. inversion S as [|? G ? Gs' S1 S2]; subst. cbn [resolve] in R.
  destruct (kget x f) as [j|] eqn:K.
  - injection R as <- <-. exists G. split; [reflexivity|]. now apply S1.
  - destruct (resolve x fs) as [[m j]|] eqn:Q; [|discriminate]. injection R as <- <-. cbn [nth_error]. now apply IH.
Qed.
Lemma find_up_eq x d up : find_up x d up = match dget (KStr x) d with Some v => Some v | None => match up with [] => None | f :: fs => find_up x (outer f d) fs end end.
Proof. destruct up; reflexivity. Qed.
Lemma find_up_none x Fs up cs : ups Fs up cs -> ~ In x working -> (forall G, In G Fs -> kget x G = None) ->
  forall d, dget (KStr x) d = None -> find_up x d up = None.
Proof.
  intros U W. induction U as [|wk F Fs f up c cs R KS U IH]; intros H d D; rewrite find_up_eq, D; [reflexivity|].
  apply IH; [intros G I; apply H; now right|]. rewrite outer_other.
  - eapply frel_none; [exact R|apply H; now left|exact W].
  - intros E. injection E as E. rewrite <- E in KS. rewrite (H F (or_introl eq_refl)) in KS. discriminate.
Qed.
Lemma find_up_at x k G Fs up cs : ups Fs up cs -> ~ In x working -> k <> KSec -> kget x G = Some k ->
  forall n, nth_error Fs n = Some G -> (forall m H, nth_error Fs m = Some H -> kget x H <> None -> m = n) ->
  forall d, dget (KStr x) d = None ->
  exists f c wk, nth_error cs n = Some c /\ frel working wk G (fr_dic f) c /\ find_up x d up = dget (KStr x) (fr_dic f).
Proof.
  intros U W NS K. induction U as [|wk F Fs f up c cs R KS U IH]; intros n NG UQ d D; [destruct n; discriminate|].
  rewrite find_up_eq, D. destruct n as [|n]; cbn [nth_error] in NG.
  - injection NG as ->. exists f, c, wk. split; [reflexivity|]. split; [exact R|].
    assert (NX : KStr x <> KStr (fr_name f)) by (intros E; injection E as E; rewrite <- E in KS; congruence).
    rewrite find_up_eq, outer_other by exact NX. destruct (dget (KStr x) (fr_dic f)) as [v|] eqn:DV; [reflexivity|].
    destruct up as [|f2 up]; [reflexivity|].
    change (match dget (KStr x) (outer f d) with Some v => Some v | None => find_up x (outer f2 (outer f d)) up end = None) || idtac.
    pose proof (find_up_none x Fs (f2 :: up) cs U W) as Q.
    assert (HN : forall H, In H Fs -> kget x H = None).
    { intros H I. destruct (kget x H) as [j|] eqn:KH; [|reflexivity]. apply In_nth_error in I as (m & I).
      specialize (UQ (S m) H I). rewrite KH in UQ. specialize (UQ ltac:(discriminate)). discriminate. }
    specialize (Q HN (outer f d)). rewrite find_up_eq in Q. rewrite outer_other in Q by exact NX. rewrite DV in Q. now apply Q.
  - destruct (IH n NG) with (d := outer f d) as (g & e & wk' & E1 & E2 & E3).
    + intros m H I J. specialize (UQ (S m) H I J). lia.
    + assert (KF : kget x F = None).
      { destruct (kget x F) as [j|] eqn:KF; [|reflexivity]. specialize (UQ 0%nat F eq_refl). rewrite KF in UQ. specialize (UQ ltac:(discriminate)). discriminate. }
      rewrite outer_other; [eapply frel_none; [exact R|exact KF|exact W]|]. intros E. injection E as E. rewrite <- E in KS. congruence.
    + exists g, e, wk'. auto.
Qed.

Section Levels.
  Variables (wk : str -> option val) (F : vars) (Fs : list vars) (N U outer : list str) (up : list vars) (lv : list str) (cur : vars).
  Hypothesis CX : ctx F Fs N U outer.
  Hypothesis SB : Forall2 sub (cur :: up) (F :: Fs).
  Variables (s : pstate) (st : cstate).
  Hypothesis RC : frel working wk F (ps_dic s) (k_cur st).
  Hypothesis RU : ups Fs (ps_up s) (k_up st).
  Hypothesis LL : k_loops st = ps_loops s.
  Hypothesis LO : loops_ok lv (ps_loops s).

  Lemma look_both x n k : In x U -> resolve x (cur :: up) = Some (n, k) -> k <> KSec ->
    exists G d c wk, kget x G = Some k /\ frame_at n st = Some c /\ frel working wk G d c /\ ~ In x working /\
      find_up x (ps_dic s) (ps_up s) = dget (KStr x) d.
  Proof.
    intros IU R NS. destruct (resolve_at x _ _ _ _ SB R) as (G & NG & K).
    assert (W : ~ In x working) by (eapply (cx_plain _ _ _ _ _ CX); [eapply nth_error_In; exact NG|exact K]).
    assert (UQ : forall m H, nth_error (F :: Fs) m = Some H -> kget x H <> None -> m = n).
    { intros m H I J. destruct (kget x H) as [j|] eqn:KH; [|congruence]. exact (cx_sep _ _ _ _ _ CX m n H G x j k IU I NG KH K). }
    destruct n as [|n]; cbn [nth_error] in NG.
    - injection NG as <-. exists F, (ps_dic s), (k_cur st), wk. split; [exact K|]. split; [reflexivity|]. split; [exact RC|]. split; [exact W|].
      rewrite find_up_eq. destruct (dget (KStr x) (ps_dic s)) as [v|] eqn:D; [reflexivity|].
      assert (HN : forall H, In H Fs -> kget x H = None).
      { intros H I. destruct (kget x H) as [j|] eqn:KH; [|reflexivity]. apply In_nth_error in I as (m & I).
        specialize (UQ (S m) H I). rewrite KH in UQ. specialize (UQ ltac:(discriminate)). discriminate. }
      pose proof (find_up_none x Fs _ _ RU W HN (ps_dic s) D) as Q. rewrite find_up_eq, D in Q. exact Q.
    - assert (KF : kget x F = None).
      { destruct (kget x F) as [j|] eqn:KF; [|reflexivity]. specialize (UQ 0%nat F eq_refl). rewrite KF in UQ. specialize (UQ ltac:(discriminate)). discriminate. }
      destruct (find_up_at x k G Fs _ _ RU W NS K n NG) with (d := ps_dic s) as (f & c & wk' & E1 & E2 & E3).
      + intros m H I J. specialize (UQ (S m) H I J). lia.
      + eapply frel_none; [exact RC|exact KF|exact W].
      + exists G, (fr_dic f), c, wk'. auto 10.
  Qed.

  (** ** Expressions *)

  (** the value of Python, if there is one, is the one of C++ *)
  Definition outcome (depth : nat) (e : expr) (z : Z) : Prop :=
    match eval_expr depth (scope_of s) true true false e with
    | Ok t => t = (vint z, vint 0, None)
    | Err (VariableNotFoundError _) => False
    | Err _ => True
    end.

  Lemma var_read wk' n x ix arr t c w G d : kget x G = Some (var_kind arr t) -> frel working wk' G d c -> ~ In x working ->
    indices_ok lv ix = Some arr -> cell_value (k_loops st) c x ix = Val w -> did_read (k_loops st) c x ix = Val true /\ n = n :> nat.
  Proof.
    intros K R W I C. split; [|reflexivity]. apply indices_inv in I as [[-> ->]|(q & -> & -> & Q)]; cbn [cell_value did_read] in *.
    - destruct (vget x (cf_vars c)); [reflexivity|discriminate].
    - destruct (index_value (k_loops st) q) as [i| |]; try discriminate. cbn [cbind] in *.
      destruct (vget x (cf_vars c)) as [[v|m]|]; try discriminate. unfold nv_get, nv_at in C. fold nv_get in C.
      destruct m as [v|a b els]; [discriminate|]. destruct (nv_contains i (Vec a b els)); [reflexivity|discriminate].
  Qed.

  Lemma eval_both depth e : forall z, incl (expr_names e) U -> int_expr up lv cur e = true -> ceval up lv cur st e = Val z -> outcome depth e z.
  Proof.
    induction e as [x ix|x ix|dz n|a IHa|a IHa b IHb|a IHa b IHb|a IHa b IHb|a IHa b IHb|a IHa b IHb]; intros z IU IE CE;
      cbn [int_expr ceval expr_names] in IU, IE, CE; try discriminate; unfold outcome; rewrite eval_expr_eq; cbn zeta.
    - unfold eval_var. destruct (known x lv) eqn:KN.
      + destruct (lget x (k_loops st)) as [i|] eqn:LG; [|discriminate]. injection CE as ->. rewrite LL in LG.
        unfold get_raw. cbn [scope_of sc_loops sc_dic]. rewrite LG. destruct (dget (KStr x) (ps_dic s)); [exact Logic.I|]. reflexivity.
      + destruct (indices_ok lv ix) as [arr|] eqn:IX; [|discriminate].
        destruct (resolve x (cur :: up)) as [[n k]|] eqn:RS; [|discriminate].
        apply kind_eqb_eq in IE. subst k.
        destruct (look_both x n _ (IU x (or_introl eq_refl)) RS) as (G & d & c & wk' & K & FA & R & W & FU); [destruct arr; discriminate|].
        rewrite FA in CE. destruct (cell_value (k_loops st) c x ix) as [v| |] eqn:CV; try discriminate. cbn [cbind] in CE.
        destruct v as [[y| |]| | | | | | |]; try discriminate. injection CE as ->.
        destruct (var_read wk' n x ix arr TInt c _ G d K R W IX CV) as [DR _]. rewrite LL in DR, CV.
        pose proof (did_read_both working wk' G d c lv (ps_loops s) x ix arr TInt true R LO W IX K DR true (scope_of s) eq_refl
          (lget_known x lv _ LO KN) FU) as Q. destruct Q as (v & w & GR & CV' & AV). rewrite GR. cbn [bind].
        assert (w = VNum (NInt z)) by congruence. subst w. apply alike_int in AV. subst v. reflexivity.
    - destruct n as [y| |]; try discriminate. apply c_int_val in CE as [-> _]. reflexivity.
    - destruct (ceval up lv cur st a) as [x| |]; try discriminate. cbn [cbind] in CE. apply c_int_val in CE as [-> _].
      specialize (IHa x IU IE eq_refl). unfold outcome in IHa.
      destruct (eval_expr depth (scope_of s) true true false a) as [t|er]; [subst t; reflexivity|exact IHa].
    - apply andb_true_iff in IE as [I1 I2]. destruct (ceval up lv cur st a) as [x| |]; try discriminate. cbn [cbind] in CE.
      destruct (ceval up lv cur st b) as [y| |]; try discriminate. cbn [cbind] in CE. apply c_int_val in CE as [-> _].
      apply incl_app_inv in IU as [U1 U2]. specialize (IHa x U1 I1 eq_refl). specialize (IHb y U2 I2 eq_refl). unfold outcome in IHa, IHb.
      destruct (eval_expr depth (scope_of s) true true false a) as [t|er]; [subst t|exact IHa]. cbn [bind].
      destruct (eval_expr depth (scope_of s) true true false b) as [t|er]; [subst t; reflexivity|exact IHb].
    - apply andb_true_iff in IE as [I1 I2]. destruct (ceval up lv cur st a) as [x| |]; try discriminate. cbn [cbind] in CE.
      destruct (ceval up lv cur st b) as [y| |]; try discriminate. cbn [cbind] in CE. apply c_int_val in CE as [-> _].
      apply incl_app_inv in IU as [U1 U2]. specialize (IHa x U1 I1 eq_refl). specialize (IHb y U2 I2 eq_refl). unfold outcome in IHa, IHb.
      destruct (eval_expr depth (scope_of s) true true false a) as [t|er]; [subst t|exact IHa]. cbn [bind].
      destruct (eval_expr depth (scope_of s) true true false b) as [t|er]; [subst t; reflexivity|exact IHb].
    - apply andb_true_iff in IE as [I1 I2]. destruct (ceval up lv cur st a) as [x| |]; try discriminate. cbn [cbind] in CE.
      destruct (ceval up lv cur st b) as [y| |]; try discriminate. cbn [cbind] in CE. apply c_int_val in CE as [-> _].
      apply incl_app_inv in IU as [U1 U2]. specialize (IHa x U1 I1 eq_refl). specialize (IHb y U2 I2 eq_refl). unfold outcome in IHa, IHb.
      destruct (eval_expr depth (scope_of s) true true false a) as [t|er]; [subst t|exact IHa]. cbn [bind].
      destruct (eval_expr depth (scope_of s) true true false b) as [t|er]; [subst t|exact IHb]. cbn [bind].
      change (coef0 (vint 0)) with true. cbn [negb andb]. change (math_mul (vint x) (vint y)) with (Ok (vint (x * y))).
      change (math_mul (vint x) (vint 0)) with (Ok (vint (x * 0))). cbn [bind]. now rewrite Z.mul_0_r.
  Qed.

  Lemma unread_fails depth e : incl (expr_names e) U -> int_expr up lv cur e = true -> all_read up lv cur st e = Val false ->
    forall t, eval_expr depth (scope_of s) true true false e <> Ok t.
  Proof.
    assert (TWO : forall a b, incl (expr_names a ++ expr_names b) U -> (incl (expr_names a) U -> int_expr up lv cur a = true -> all_read up lv cur st a = Val false -> forall t, eval_expr depth (scope_of s) true true false a <> Ok t) ->
      (incl (expr_names b) U -> int_expr up lv cur b = true -> all_read up lv cur st b = Val false -> forall t, eval_expr depth (scope_of s) true true false b <> Ok t) ->
      int_expr up lv cur a && int_expr up lv cur b = true ->
      (let* x := all_read up lv cur st a in if (x : bool) then all_read up lv cur st b else Val false) = Val false ->
      (forall t, eval_expr depth (scope_of s) true true false a <> Ok t) \/ (forall t, eval_expr depth (scope_of s) true true false b <> Ok t)).
    { intros a b IU IHa IHb IE AR. apply incl_app_inv in IU as [U1 U2]. apply andb_true_iff in IE as [I1 I2]. destruct (all_read up lv cur st a) as [x| |]; try discriminate. cbn [cbind] in AR.
      destruct x; auto. }
    induction e as [x ix|x ix|dz n|a IHa|a IHa b IHb|a IHa b IHb|a IHa b IHb|a IHa b IHb|a IHa b IHb]; intros IU IE AR t;
      cbn [int_expr all_read expr_names] in IU, IE, AR; try discriminate; rewrite eval_expr_eq; cbn zeta.
    - unfold eval_var. destruct (known x lv) eqn:KN; [discriminate|].
      destruct (indices_ok lv ix) as [arr|] eqn:IX; [|discriminate].
      destruct (resolve x (cur :: up)) as [[n k]|] eqn:RS; [|discriminate].
      apply kind_eqb_eq in IE. subst k.
      destruct (look_both x n _ (IU x (or_introl eq_refl)) RS) as (G & d & c & wk' & K & FA & R & W & FU); [destruct arr; discriminate|].
      rewrite FA, LL in AR.
      pose proof (did_read_both working wk' G d c lv (ps_loops s) x ix arr TInt false R LO W IX K AR true (scope_of s) eq_refl
          (lget_known x lv _ LO KN) FU) as Q. cbn iota in Q. destruct Q as (er & -> & _). cbn [bind]. discriminate.
    - specialize (IHa IU IE AR). destruct (eval_expr depth (scope_of s) true true false a) as [p|]; cbn [bind]; [|discriminate]. exfalso. exact (IHa p eq_refl).
    - destruct (TWO a b IU IHa IHb IE AR) as [H|H]; destruct (eval_expr depth (scope_of s) true true false a) as [[[c1 k1] u1]|]; cbn [bind]; try discriminate;
        [exfalso; exact (H _ eq_refl)|]. destruct (eval_expr depth (scope_of s) true true false b) as [p|]; cbn [bind]; try discriminate. exfalso. exact (H p eq_refl).
    - destruct (TWO a b IU IHa IHb IE AR) as [H|H]; destruct (eval_expr depth (scope_of s) true true false a) as [[[c1 k1] u1]|]; cbn [bind]; try discriminate;
        [exfalso; exact (H _ eq_refl)|]. destruct (eval_expr depth (scope_of s) true true false b) as [p|]; cbn [bind]; try discriminate. exfalso. exact (H p eq_refl).
    - destruct (TWO a b IU IHa IHb IE AR) as [H|H]; destruct (eval_expr depth (scope_of s) true true false a) as [[[c1 k1] u1]|]; cbn [bind]; try discriminate;
        [exfalso; exact (H _ eq_refl)|]. destruct (eval_expr depth (scope_of s) true true false b) as [p|]; cbn [bind]; try discriminate. exfalso. exact (H p eq_refl).
  Qed.

  Lemma num_cmp_int r x y : val_cmp r (vint x) (vint y) = Ok (cmp_int r x y).
  Proof.
    destruct r; unfold val_cmp, vint, cmp_int; cbn [as_num bind val_eqb]; f_equal;
      unfold num_eqb, num_ltb, num_leb, num_cmp; cbn [sf_of num_num num_den]; rewrite ?Z.mul_1_r, ?Z.eqb_compare; unfold Z.ltb, Z.leb;
      repeat match goal with |- context [?a ?= ?b] => destruct (a ?= b) end; reflexivity.
  Qed.

  Lemma cond_both en q b b' : incl (cond_names q) U -> int_cond up lv cur q = true -> truthvalue en (scope_of s) q = Ok b -> ccond up lv cur st q = Val b' -> b = b'.
  Proof.
    revert b b'. induction q as [r x y|q1 IH1 q2 IH2|q1 IH1 q2 IH2]; intros b b' IU IC T C; cbn [int_cond truthvalue ccond cond_names] in *; apply incl_app_inv in IU as [U1 U2].
    - apply andb_true_iff in IC as [I1 I2]. unfold eval_relation, eval_known in T.
      destruct (all_read up lv cur st x) as [[]| |] eqn:AR; try discriminate; cbn [cbind] in C.
      + destruct (ceval up lv cur st x) as [a| |] eqn:CX1; try discriminate. cbn [cbind] in C.
        destruct (ceval up lv cur st y) as [c| |] eqn:CY; try discriminate. cbn [cbind] in C. injection C as <-.
        pose proof (eval_both (e_depth en) x a U1 I1 CX1) as O1. pose proof (eval_both (e_depth en) y c U2 I2 CY) as O2. unfold outcome in O1, O2.
        destruct (eval_expr (e_depth en) (scope_of s) true true false x) as [p|er]; [subst p|destruct er; try discriminate T; contradiction].
        cbn [bind] in T. destruct (eval_expr (e_depth en) (scope_of s) true true false y) as [p|er]; [subst p|destruct er; try discriminate T; contradiction].
        cbn [bind] in T. rewrite num_cmp_int in T. now injection T.
      + injection C as <-. pose proof (unread_fails (e_depth en) x U1 I1 AR) as UF.
        destruct (eval_expr (e_depth en) (scope_of s) true true false x) as [p|er]; [exfalso; exact (UF p eq_refl)|].
        cbn [bind] in T. destruct er; try discriminate T. now injection T.
    - apply andb_true_iff in IC as [I1 I2]. destruct (truthvalue en (scope_of s) q1) as [x|]; [|discriminate]. cbn [bind] in T.
      destruct (ccond up lv cur st q1) as [y| |]; try discriminate. cbn [cbind] in C. specialize (IH1 x y U1 I1 eq_refl eq_refl). subst y.
      destruct x; [eauto|congruence].
    - apply andb_true_iff in IC as [I1 I2]. destruct (truthvalue en (scope_of s) q1) as [x|]; [|discriminate]. cbn [bind] in T.
      destruct (ccond up lv cur st q1) as [y| |]; try discriminate. cbn [cbind] in C. specialize (IH1 x y U1 I1 eq_refl eq_refl). subst y.
      destruct x; [congruence|eauto].
  Qed.
End Levels.
