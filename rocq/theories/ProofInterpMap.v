(** Reading the fields of a record (C22, C23, C24). *)
From Coq Require Import Ascii String ZArith QArith Qabs Bool Lia Lqa List.
From Coq Require Import Floats.SpecFloat.
From Verif Require Import ProofFloat PyBase PyFloat ModelFortran ModelRecords ModelTape ModelNum ModelRecipe ModelInterp.
From Verif Require Import SpecInterp ProofPyBase ProofInterp ProofInterpCtl ProofInterpSec.
Import ListNotations.
Open Scope Z_scope.

(** ** Division of integers *)

Lemma sf_integral_val f : sf_integral f = true -> (ProofFloat.val f == inject_Z (Z.quot (sf_num f) (sf_den f)))%Q.
Proof.
  intros I. unfold sf_integral in I. apply Z.eqb_eq in I. unfold ProofFloat.val, frac.
  pose proof (iz_pos _ (sf_den_pos f)) as P. rewrite <- I at 1. rewrite inject_Z_mult. field. lra.
Qed.

Lemma int_quot_exact x y : y <> 0 -> Z.abs x < 2 ^ 53 -> Z.abs y < 2 ^ 53 -> sf_integral (int_quot x y) = true ->
  x = Z.quot (sf_num (int_quot x y)) (sf_den (int_quot x y)) * y.
Proof.
  intros Hy Bx By I. apply sf_integral_val in I. set (q := Z.quot _ _) in *.
  unfold int_quot in I. set (sg := xorb _ _) in I.
  destruct (Z.eq_dec x 0) as [->|Nx].
  { assert (q = 0) as ->; [|lia]. apply (proj1 (inject_Z_injective q 0)). rewrite <- I. reflexivity. }
  assert (0 < Z.abs x) as Px by lia. assert (0 < Z.abs y) as Py by lia.
  assert (L : (p2 (-1022) <= frac (Z.abs x) (Z.abs y))%Q).
  { apply le_frac; auto. apply Qle_trans with (p2 (-1022) * inject_Z (2 ^ 53))%Q.
    - apply Qmult_le_l; [apply p2_pos|]. apply iz_le. lia.
    - apply Qle_trans with (inject_Z 1); [vm_compute; discriminate|]. apply iz_le. lia. }
  assert (U : (frac (Z.abs x) (Z.abs y) < ovf)%Q).
  { apply frac_lt; auto. apply Qlt_le_trans with (inject_Z (2 ^ 53)); [apply iz_lt; lia|].
    apply Qle_trans with (ovf * inject_Z 1)%Q; [vm_compute; discriminate|]. apply Qmult_le_l; [reflexivity|]. apply iz_le. lia. }
  pose proof (round64_rel_normal sg _ _ Py Px L U) as R. rewrite I in R.
  assert (S : (sgnQ sg * frac (Z.abs x) (Z.abs y) * inject_Z y == inject_Z x)%Q).
  { pose proof (frac_mul (Z.abs x) (Z.abs y) Py) as F.
    unfold sg. destruct (Z.ltb_spec x 0), (Z.ltb_spec y 0); cbn [xorb sgnQ].
    - replace (Z.abs y) with (- y) in * by lia. replace (Z.abs x) with (- x) in * by lia. rewrite !inject_Z_opp in F. lra.
    - replace (Z.abs y) with y in * by lia. replace (Z.abs x) with (- x) in * by lia. rewrite !inject_Z_opp in F. lra.
    - replace (Z.abs y) with (- y) in * by lia. replace (Z.abs x) with x in * by lia. rewrite !inject_Z_opp in F. lra.
    - replace (Z.abs y) with y in * by lia. replace (Z.abs x) with x in * by lia. lra. }
  assert (D : (Qabs (inject_Z (q * y - x)) < 1)%Q).
  { unfold Zminus. rewrite inject_Z_plus, inject_Z_opp, inject_Z_mult.
    setoid_replace (inject_Z q * inject_Z y + - inject_Z x)%Q
      with ((inject_Z q - sgnQ sg * frac (Z.abs x) (Z.abs y)) * inject_Z y)%Q.
    2:{ rewrite <- S. ring. }
    rewrite Qabs_Qmult. eapply Qle_lt_trans.
    - apply Qmult_le_compat_r; [exact R|]. apply Qabs_nonneg.
    - assert (Qabs (inject_Z y) == inject_Z (Z.abs y))%Q as -> by reflexivity.
      rewrite <- Qmult_assoc, frac_mul by auto.
      apply Qlt_le_trans with (p2 (-53) * inject_Z (2 ^ 53))%Q; [|vm_compute; discriminate].
      apply Qmult_lt_l; [apply p2_pos|]. apply iz_lt. lia. }
  assert (Qabs (inject_Z (q * y - x)) == inject_Z (Z.abs (q * y - x)))%Q as E by reflexivity.
  rewrite E in D. change 1%Q with (inject_Z 1) in D. apply (proj1 (iz_lt _ _)) in D. lia.
Qed.

Lemma int_div_exact x y r : Z.abs x < 2 ^ 53 -> Z.abs y < 2 ^ 53 ->
  num_div true (NInt x) (NInt y) = Ok r -> exists q, r = NInt q /\ x = q * y.
Proof.
  intros Hx Hy. unfold num_div, n_div. destruct (y =? 0) eqn:Y; [discriminate|]. apply Z.eqb_neq in Y.
  pose proof (int_quot_exact x y Y Hx Hy) as E.
  destruct (int_quot x y) as [s|s| |s m e]; cbn [bind]; try discriminate;
    (match goal with |- context [sf_integral ?f] => destruct (sf_integral f) eqn:I; [|discriminate] end);
    intros H; injection H as <-; eexists; (split; [reflexivity|]); exact (E eq_refl).
Qed.

(** ** Expressions *)

Definition eval_var (depth : nat) (sc : scope) (lu cast accept : bool) (x : str) (ix : list idx) : result lin :=
  match (do v <- get_raw sc lu x ix;
         match v with
         | VExpr a => match depth with
                      | O => Err RecursionError
                      | S n => eval_expr n sc lu cast accept a
                      end
         | _ => Ok (v, vint 0, None)
         end) with
  | Ok t => Ok t
  | Err er => if missing accept er then Ok (vint 0, vint 1, Some (x, ix)) else Err er
  end.

Lemma eval_expr_eq depth sc lu cast accept e : eval_expr depth sc lu cast accept e =
  let ev := eval_expr depth sc lu cast accept in
  match e with
  | EVar x ix => eval_var depth sc lu cast accept x ix
  | EIncons x ix => eval_var depth sc lu cast accept x ix
  | ENum _ v => Ok (VNum v, vint 0, None)
  | ENeg a =>
      do (c, k, u) <- ev a;
      do c' <- math_neg c; do k' <- math_neg k; Ok (c', k', u)
  | EMul a b =>
      do (c1, k1, u1) <- ev a; do (c2, k2, u2) <- ev b;
      if negb (coef0 k1) && negb (coef0 k2) then Err SeveralUnboundVariablesError
      else if coef0 k1
           then do c <- math_mul c1 c2; do k <- math_mul c1 k2; Ok (c, k, u2)
           else do c <- math_mul c1 c2; do k <- math_mul k1 c2; Ok (c, k, u1)
  | EDiv a b =>
      do (c1, k1, u1) <- ev a; do (c2, k2, u2) <- ev b;
      if negb (coef0 k2) then Err VariableInDenominatorError
      else do c <- math_div cast c1 c2; do k <- math_div cast k1 c2; Ok (c, k, u1)
  | EMod a b =>
      do (c1, k1, u1) <- ev a; do (c2, k2, u2) <- ev b;
      if negb (coef0 k1) || negb (coef0 k2) then Err SeveralUnboundVariablesError
      else do c <- math_mod c1 c2; Ok (c, vint 0, None)
  | EAdd a b =>
      do (c1, k1, u1) <- ev a; do (c2, k2, u2) <- ev b;
      if negb (coef0 k1) && negb (coef0 k2) then Err SeveralUnboundVariablesError
      else do c <- math_add c1 c2; do k <- math_add k1 k2;
           Ok (c, k, if coef0 k1 then u2 else u1)
  | ESub a b =>
      do (c1, k1, u1) <- ev a; do (c2, k2, u2) <- ev b;
      if negb (coef0 k1) && negb (coef0 k2) then Err SeveralUnboundVariablesError
      else do c <- math_sub c1 c2; do k <- math_sub k1 k2;
           Ok (c, k, if coef0 k1 then u2 else u1)
  end.
Proof. destruct depth, e; reflexivity. Qed.

Lemma coef0_int z : coef0 (vint z) = (z =? 0).
Proof.
  unfold coef0, val_eqZ, vint, num_eqb, num_cmp. cbn [sf_of num_num num_den].
  rewrite !Z.mul_1_r. rewrite Z.eqb_compare. destruct (z ?= 0); reflexivity.
Qed.

Ltac dbind H :=
  match type of H with
  | bind ?m _ = Ok _ => let E := fresh "E" in destruct m eqn:E; cbn [bind] in H; [|discriminate H]
  | (match ?m with Ok _ => _ | Err _ => _ end) = Ok _ => let E := fresh "E" in destruct m eqn:E; [|discriminate H]
  end.

(** the variable solved for is one without value *)
Lemma eval_no_missing n : forall sc lu cast e er, eval_expr n sc lu cast true e = Err er -> missing true er = false.
Proof.
  assert (MO : forall f x y er, (forall a b er, f a b = Err er -> missing true er = false) ->
     math_op f x y = Err er -> missing true er = false).
  { intros f x y er F. 
    assert (G : forall l er, mapM (fun p : val * val => do a <- as_num (fst p); do b <- as_num (snd p); do r <- f a b; Ok (VNum r)) l = Err er -> missing true er = false).
    { induction l as [|[p q] l IH]; cbn [mapM]; intros er0; [discriminate|].
      cbn [fst snd]. destruct p, q; cbn [as_num bind]; try (intros H; injection H as <-; reflexivity).
      destruct (f n0 n1) eqn:E; cbn [bind]; [|intros H; injection H as <-; eauto].
      destruct (mapM _ l) eqn:E2; cbn [bind]; [discriminate|]. intros H. injection H as <-. eauto. }
    assert (G1 : forall y l er, mapM (fun z : val => do a <- as_num (fst (z, y)); do b <- as_num (snd (z, y)); do r <- f a b; Ok (VNum r)) l = Err er -> missing true er = false).
    { intros y0. induction l as [|p l IH]; cbn [mapM]; intros er0; [discriminate|].
      cbn [fst snd]. destruct p, y0; cbn [as_num bind]; try (intros H; injection H as <-; reflexivity).
      destruct (f n0 n1) eqn:E; cbn [bind]; [|intros H; injection H as <-; eauto].
      destruct (mapM _ l) eqn:E2; cbn [bind]; [discriminate|]. intros H. injection H as <-. eauto. }
    assert (G2 : forall x l er, mapM (fun z : val => do a <- as_num (fst (x, z)); do b <- as_num (snd (x, z)); do r <- f a b; Ok (VNum r)) l = Err er -> missing true er = false).
    { intros y0. induction l as [|p l IH]; cbn [mapM]; intros er0; [discriminate|].
      cbn [fst snd]. destruct p, y0; cbn [as_num bind]; try (intros H; injection H as <-; reflexivity).
      destruct (f n1 n0) eqn:E; cbn [bind]; [|intros H; injection H as <-; eauto].
      destruct (mapM _ l) eqn:E2; cbn [bind]; [discriminate|]. intros H. injection H as <-. eauto. }
    unfold math_op. destruct x, y; try (intros H; injection H as <-; reflexivity).
    - destruct (f n0 n1) eqn:E; cbn [bind]; [discriminate|]. intros H; injection H as <-; eauto.
    - destruct (mapM _ l) eqn:E; cbn [bind]; [discriminate|]. intros H; injection H as <-; eauto.
    - destruct (mapM _ l) eqn:E; cbn [bind]; [discriminate|]. intros H; injection H as <-; eauto.
    - destruct (Nat.eqb _ _); [|intros H; injection H as <-; reflexivity].
      destruct (mapM _ _) eqn:E; cbn [bind]; [discriminate|]. intros H; injection H as <-; eauto. }
  assert (AF : forall a er, as_float a = Err er -> missing true er = false).
  { intros [z|f|f o] er; cbn [as_float]; try discriminate. destruct (round64_signed z 1); try discriminate.
    intros H; injection H as <-; reflexivity. }
  assert (AR : forall fi ff a b er, arith fi ff a b = Err er -> missing true er = false).
  { intros fi ff a b er. unfold arith. destruct a, b; try discriminate; try (intros H; injection H as <-; reflexivity);
    (destruct (as_float _) eqn:E1; cbn [bind]; [|intros H; injection H as <-; eauto]);
    (destruct (as_float _) eqn:E2 in |- *; cbn [bind]; [|intros H; injection H as <-; eauto]); discriminate. }
  assert (NM : forall x er, math_neg x = Err er -> missing true er = false).
  { assert (NN : forall a er, n_neg a = Err er -> missing true er = false).
    { intros [ | | ] er; cbn [n_neg]; try discriminate; intros H; injection H as <-; reflexivity. }
    intros [a| | | | | | |] er; cbn [math_neg]; try (intros H; injection H as <-; reflexivity).
    - destruct (n_neg a) eqn:E; cbn [bind]; [discriminate|]. intros H; injection H as <-; eauto.
    - destruct (mapM _ l) eqn:E; cbn [bind]; [discriminate|]. intros H; injection H as <-.
      revert e E. induction l as [|v l IH]; cbn [mapM]; intros er0; [discriminate|].
      destruct v; cbn [as_num bind]; try (intros H; injection H as <-; reflexivity).
      destruct (n_neg n0) eqn:E1; cbn [bind]; [|intros H; injection H as <-; eauto].
      destruct (mapM _ l) eqn:E2; cbn [bind]; [discriminate|]. intros H; injection H as <-; eauto. }
  assert (ND : forall a b er, n_div a b = Err er -> missing true er = false).
  { intros a b er. unfold n_div. destruct a, b; try (intros H; injection H as <-; reflexivity);
    try (destruct (_ =? _); [intros H; injection H as <-; reflexivity|destruct (int_quot _ _); try discriminate; intros H; injection H as <-; reflexivity]);
    (destruct (as_float _) eqn:E1; cbn [bind]; [|intros H; injection H as <-; eauto]);
    (destruct (as_float _) eqn:E2 in |- *; cbn [bind]; [|intros H; injection H as <-; eauto]);
    destruct (sf_is_zero _); try discriminate; intros H; injection H as <-; reflexivity. }
  assert (NR : forall a b er, n_mod a b = Err er -> missing true er = false).
  { intros a b er. unfold n_mod. destruct a, b; try (intros H; injection H as <-; reflexivity);
    try (destruct (_ =? _); [intros H; injection H as <-; reflexivity|discriminate]);
    (destruct (as_float _) eqn:E1; cbn [bind]; [|intros H; injection H as <-; eauto]);
    (destruct (as_float _) eqn:E2 in |- *; cbn [bind]; [|intros H; injection H as <-; eauto]);
    destruct (sf_is_zero _); try discriminate; intros H; injection H as <-; reflexivity. }
  assert (MD : forall cast a b er, math_div cast a b = Err er -> missing true er = false).
  { intros cast a b er. unfold math_div. destruct a, b; try (apply MO; exact ND).
    unfold num_div. destruct (n_div n0 n1) eqn:E; cbn [bind]; [|intros H; injection H as <-; eauto].
    destruct n0, n1, a; cbn [bind]; try discriminate.
    destruct (sf_integral f); cbn [bind]; [discriminate|]. destruct cast; cbn [bind]; [|discriminate].
    intros H; injection H as <-; reflexivity. }
  induction n as [|n IHn]; intros sc lu cast e; induction e as [x ix|x ix|d v|a IHa|a IHa b IHb|a IHa b IHb|a IHa b IHb|a IHa b IHb|a IHa b IHb];
    intros er; rewrite eval_expr_eq; cbv zeta;
    try (unfold eval_var; match goal with |- (match ?m with Ok _ => _ | Err _ => _ end) = _ -> _ => destruct m as [t|er0] end;
         [discriminate|destruct (missing true er0) eqn:Q; [discriminate|intros H; injection H as <-; exact Q]]);
    try discriminate;
    (destruct (eval_expr _ _ _ _ _ a) as [[[c1 k1] u1]|e1]; cbn [bind]; [|intros H; injection H as <-; eauto]);
    try (destruct (eval_expr _ _ _ _ _ b) as [[[c2 k2] u2]|e2]; cbn [bind]; [|intros H; injection H as <-; eauto]);
    repeat (match goal with |- (if ?b then _ else _) = _ -> _ => destruct b; [try (intros H; injection H as <-; reflexivity)|] | |- (if ?b then _ else _) = _ -> _ => destruct b end);
    try (intros H; injection H as <-; reflexivity);
    repeat (match goal with |- bind ?m _ = _ -> _ => let E := fresh "E" in destruct m eqn:E; cbn [bind]; [|intros H; injection H as <-; solve [eauto]] end);
    try discriminate.
Qed.

Lemma eval_unknown n : forall sc lu cast e c k u, eval_expr n sc lu cast true e = Ok (c, k, Some u) ->
  exists er, get_raw sc lu (fst u) (snd u) = Err er /\ missing true er = true.
Proof.
  induction n as [|n IHn]; intros sc lu cast e; induction e as [x ix|x ix|d v|a IHa|a IHa b IHb|a IHa b IHb|a IHa b IHb|a IHa b IHb|a IHa b IHb];
    intros c k u; rewrite eval_expr_eq; cbv zeta; try discriminate;
    try (unfold eval_var; destruct (get_raw sc lu x ix) as [w|er] eqn:G; cbn [bind];
         [destruct w; try discriminate;
          first [intros H; eapply IHn; destruct (eval_expr n _ _ _ _ _) as [t|er] eqn:E in H; [injection H as ->; exact E|];
                 apply eval_no_missing in E; rewrite E in H; discriminate | discriminate]
         |destruct (missing true er) eqn:Q; [|discriminate]; intros H; injection H as <- <- <-; eauto]);
    intros H; dbind H; (match type of H with context [let '(_, _) := ?p in _] => destruct p as [[c1 k1] u1] end);
    try (dbind H; (match type of H with context [let '(_, _) := ?p in _] => destruct p as [[c2 k2] u2] end));
    repeat (match type of H with (if ?b then _ else _) = _ => destruct b eqn:?; try discriminate H end);
    repeat dbind H; try discriminate H; injection H as <- <- H;
    try (destruct (coef0 k1)); subst; eauto.
Qed.

(** ** Storing a value keeps the other ones *)

Notation not_dict := no_array.

(** every variable keeps its value *)
Definition keeps_seen (sc sc' : scope) : Prop :=
  forall x ix v, get_raw sc false x ix = Ok v -> not_dict v -> get_raw sc' false x ix = Ok v.

Lemma keeps_seen_refl sc : keeps_seen sc sc. Proof. red; auto. Qed.
Lemma keeps_seen_trans a b c : keeps_seen a b -> keeps_seen b c -> keeps_seen a c.
Proof. unfold keeps_seen; eauto. Qed.

Lemma set_indexed_same idcs v : forall cur arr, set_indexed idcs v cur = Ok arr -> array_get arr idcs = Ok v.
Proof.
  induction idcs as [|i r IH]; cbn [set_indexed array_get]; intros cur arr H; [injection H as <-; reflexivity|].
  destruct cur; try discriminate. dbind H. injection H as <-. rewrite dget_dset_same. eauto.
Qed.

Lemma set_indexed_keeps idcs v : forall cur arr jdcs w er, set_indexed idcs v cur = Ok arr ->
  array_get cur idcs = Err er -> array_get cur jdcs = Ok w -> not_dict w -> array_get arr jdcs = Ok w.
Proof.
  induction idcs as [|i r IH]; cbn [set_indexed]; intros cur arr jdcs w er H M G N; [discriminate M|].
  destruct cur as [| | |d| | | |]; try discriminate. dbind H. injection H as <-.
  destruct jdcs as [|j jr]; cbn [array_get] in *. { injection G as <-. destruct (N d eq_refl). }
  destruct (Z.eq_dec j i) as [->|J].
  - rewrite dget_dset_same. destruct (dget (KInt i) d) as [o|]; [|discriminate]. eauto.
  - rewrite dget_dset_other by congruence. exact G.
Qed.

Lemma str_eqb_neq x y : x <> y -> str_eqb x y = false.
Proof. intros N. destruct (str_eqb x y) eqn:E; [|reflexivity]. apply str_eqb_eq in E. contradiction. Qed.

Lemma set_var_seen u v s s' er : set_var u v s = (Ok tt, s') ->
  get_raw (scope_of s) false (fst u) (snd u) = Err er -> missing true er = true ->
  get_raw (scope_of s') false (fst u) (snd u) = Ok v /\ keeps_seen (scope_of s) (scope_of s') /\
  exists d, s' = set_dic d s.
Proof.
  destruct u as [x ix]. cbn [fst snd]. intros H G M. unfold set_var in H.
  assert (L : lget x (ps_loops s) = None).
  { unfold get_raw in G. cbn [scope_of sc_loops sc_dic] in G. destruct (lget x (ps_loops s)); [|reflexivity].
    destruct (dget (KStr x) (ps_dic s)); [injection G as <-; discriminate M|discriminate G]. }
  destruct ix as [|i ir].
  - injection H as <-. unfold get_raw in G |- *; cbn [scope_of sc_loops sc_dic set_dic ps_loops ps_dic] in G |- *. rewrite L in G |- *.
    rewrite dget_dset_same. split; [reflexivity|]. split; [|eexists; reflexivity].
    intros y iy w; unfold get_raw; cbn [scope_of sc_loops sc_dic set_dic ps_loops ps_dic].
    destruct (key_dec (KStr y) (KStr x)) as [E|E].
    + injection E as ->. rewrite L. destruct (dget (KStr x) (ps_dic s)); discriminate.
    + rewrite dget_dset_other by exact E. auto.
  - destruct (mapM (get_indexvalue (ps_loops s)) (i :: ir)) as [idcs|] eqn:MI; cbn [bind] in H; [|discriminate].
    set (ix := i :: ir) in *.
    match type of H with match ?m with _ => _ end = _ => destruct m as [arr|] eqn:SI; [|discriminate] end.
    injection H as <-. unfold get_raw in G |- *; cbn [scope_of sc_loops sc_dic set_dic ps_loops ps_dic] in G |- *.
    rewrite L in G |- *. rewrite dget_dset_same. rewrite MI in G |- *. cbn [bind] in G |- *.
    split; [unfold ix; eapply set_indexed_same; eauto|]. split; [|eexists; reflexivity].
    intros y iy w; unfold get_raw; cbn [scope_of sc_loops sc_dic set_dic ps_loops ps_dic].
    destruct (key_dec (KStr y) (KStr x)) as [E|E].
    + injection E as ->. rewrite L, dget_dset_same. destruct (dget (KStr x) (ps_dic s)) as [o|] eqn:D; [|discriminate].
      unfold ix in G. destruct iy as [|j jr].
      * intros W N. injection W as ->. destruct idcs as [|i0 idcs].
        { discriminate G. }
        cbn [set_indexed] in SI. destruct w; try discriminate. destruct (N _ eq_refl).
      * destruct (mapM (get_indexvalue (ps_loops s)) (j :: jr)) as [jdcs|]; cbn [bind]; [|discriminate].
        intros W N. eapply set_indexed_keeps; eauto.
    + rewrite dget_dset_other by exact E. auto.
Qed.

(** ** Expressions that can be evaluated keep their value *)

Lemma math_op_arg f x y r : math_op f x y = Ok r -> not_dict x /\ not_dict y /\ not_dict r.
Proof.
  intros H; unfold math_op in H; destruct x, y; try discriminate H; repeat split; try (intros ? ?; discriminate);
   try (destruct (Nat.eqb _ _); [|discriminate]); dbind H; injection H as <-; intros ? ?; discriminate.
Qed.
Lemma math_neg_arg x r : math_neg x = Ok r -> not_dict x /\ not_dict r.
Proof. intros H; destruct x; try discriminate H; cbn [math_neg] in H; dbind H; injection H as <-; repeat split; intros ? ?; discriminate. Qed.
Lemma math_div_arg b x y r : math_div b x y = Ok r -> not_dict x /\ not_dict y /\ not_dict r.
Proof.
  unfold math_div. destruct x, y; try apply math_op_arg. intros H. dbind H. injection H as <-. repeat split; intros ? ?; discriminate.
Qed.

Lemma eval_keeps n : forall sc sc' cast e c k u, keeps_seen sc sc' ->
  eval_expr n sc false cast false e = Ok (c, k, u) -> not_dict c ->
  u = None /\ forall accept, eval_expr n sc' false cast accept e = Ok (c, k, None).
Proof.
  induction n as [|n IHn]; intros sc sc' cast e; induction e as [x ix|x ix|d v|a IHa|a IHa b IHb|a IHa b IHb|a IHa b IHb|a IHa b IHb|a IHa b IHb];
    intros c k u K H N; rewrite eval_expr_eq in H; cbv zeta in H.
  all: try solve [injection H as <- <- <-; split; [reflexivity|]; intros accept; rewrite eval_expr_eq; reflexivity].
  all: try solve [
    unfold eval_var in H; destruct (get_raw sc false x ix) as [w|er] eqn:G; cbn [bind] in H;
      [|cbn [missing andb] in H; discriminate];
    (assert (not_dict w) as NW by (destruct w; try (intros ? ?; discriminate); injection H as <- <- <-; exact N));
    pose proof (K _ _ _ G NW) as G';
    destruct w; try discriminate;
      first [injection H as <- <- <-; split; [reflexivity|]; intros accept; rewrite eval_expr_eq; unfold eval_var; rewrite G'; reflexivity
            |destruct (eval_expr n sc false cast false e) as [[[c0 k0] u0]|] eqn:E; [|cbn [missing andb] in H; discriminate];
             injection H as <- <- <-; destruct (IHn _ _ _ _ _ _ _ K E N) as [-> Q]; split; [reflexivity|];
             intros accept; rewrite eval_expr_eq; unfold eval_var; rewrite G'; cbn [bind]; rewrite Q; reflexivity] ].
  all: dbind H; (match type of H with context [let '(_, _) := ?p in _] => destruct p as [[c1 k1] u1] end);
    try (dbind H; (match type of H with context [let '(_, _) := ?p in _] => destruct p as [[c2 k2] u2] end));
    repeat (match type of H with (if ?b then _ else _) = _ => destruct b eqn:?; try discriminate H end);
    repeat dbind H; try discriminate H;
    repeat (match goal with
     | H : math_neg _ = Ok _ |- _ => let A := fresh "A" in pose proof (math_neg_arg _ _ H) as A; destruct A as [? ?]; revert H
     | H : math_add _ _ = Ok _ |- _ => let A := fresh "A" in pose proof (math_op_arg _ _ _ _ H) as A; destruct A as (? & ? & ?); revert H
     | H : math_sub _ _ = Ok _ |- _ => let A := fresh "A" in pose proof (math_op_arg _ _ _ _ H) as A; destruct A as (? & ? & ?); revert H
     | H : math_mul _ _ = Ok _ |- _ => let A := fresh "A" in pose proof (math_op_arg _ _ _ _ H) as A; destruct A as (? & ? & ?); revert H
     | H : math_mod _ _ = Ok _ |- _ => let A := fresh "A" in pose proof (math_op_arg _ _ _ _ H) as A; destruct A as (? & ? & ?); revert H
     | H : math_div _ _ _ = Ok _ |- _ => let A := fresh "A" in pose proof (math_div_arg _ _ _ _ H) as A; destruct A as (? & ? & ?); revert H
     end); intros;
    (destruct (IHa _ _ _ K eq_refl ltac:(assumption)) as [-> QA]);
    try (destruct (IHb _ _ _ K eq_refl ltac:(assumption)) as [-> QB]);
    injection H as <- <- <-; (split; [try (destruct (coef0 k1)); reflexivity|]);
    intros accept; rewrite eval_expr_eq; cbv zeta; rewrite QA; cbn [bind]; try (rewrite QB; cbn [bind]);
    repeat (match goal with H : ?b = _ |- context [if ?b then _ else _] => rewrite H end);
    repeat (match goal with H : ?m = Ok _ |- context [bind ?m _] => rewrite H; cbn [bind] end);
    try (destruct (coef0 k1)); reflexivity.
Qed.

(** ** C23: inversion of a linear expression *)

Lemma eval_var_expr n sc lu cast acc e x ix : variable e x ix ->
  eval_expr n sc lu cast acc e = eval_var n sc lu cast acc x ix.
Proof. intros [->| ->]; rewrite eval_expr_eq; reflexivity. Qed.

Lemma var_value n sc lu cast acc x ix z : get_raw sc lu x ix = Ok (vint z) ->
  eval_var n sc lu cast acc x ix = Ok (vint z, vint 0, None).
Proof. intros H. unfold eval_var. rewrite H. reflexivity. Qed.

Lemma assume_other (u : extvar) v (look : str -> list idx -> val -> Prop) x ix w :
  (forall v, ~ look (fst u) (snd u) v) -> look x ix w -> assume u v look x ix w.
Proof. intros N L. right. split; [|exact L]. intros <-. exact (N _ L). Qed.

Lemma eval_linear n : forall sc cast e u c k uo, unknown_in (seen sc) u e ->
  (forall v, ~ seen sc (fst u) (snd u) v) ->
  eval_expr n sc false cast true e = Ok (c, k, uo) ->
  exists c0 k0, c = vint c0 /\ k = vint k0 /\ (uo = None -> k0 = 0) /\ (forall w, uo = Some w -> w = u) /\
    (forall x, zeval (assume u (vint x) (seen sc)) e (c0 + k0 * x)) /\
    (forall sc' x cast', seen sc' (fst u) (snd u) (vint x) -> keeps_seen sc sc' ->
       eval_expr n sc' false cast' false e = Ok (vint (c0 + k0 * x), vint 0, None) /\
       zeval (seen sc') e (c0 + k0 * x)).
Proof.
  induction n as [n IHn] using (well_founded_induction PeanoNat.Nat.lt_wf_0). intros sc cast e u c k uo U NU.
  revert c k uo. induction U as [d z|e x ix z V L|e x ix a V L U _|e V L|a U IHa|a b U1 IHa U2 IHb|a b U1 IHa U2 IHb|a b U1 IHa U2 IHb];
    intros c k uo H.
  - rewrite eval_expr_eq in H. injection H as <- <- <-. exists z, 0. do 3 (split; [reflexivity|]).
    split; [discriminate|]. split; [intros x; rewrite Z.mul_0_l, Z.add_0_r; constructor|].
    intros sc' x cast' _ _. rewrite eval_expr_eq, Z.mul_0_l, Z.add_0_r. split; [reflexivity|constructor].
  - rewrite (eval_var_expr _ _ _ _ _ _ _ _ V), (var_value _ _ _ _ _ _ _ _ L) in H. injection H as <- <- <-.
    exists z, 0. do 3 (split; [reflexivity|]). split; [discriminate|].
    split; [intros y; rewrite Z.mul_0_l, Z.add_0_r; eapply zv_var; eauto using assume_other|].
    intros sc' y cast' _ K. assert (seen sc' x ix (vint z)) as L' by (apply K; [exact L|discriminate]).
    rewrite (eval_var_expr _ _ _ _ _ _ _ _ V), (var_value _ _ _ _ _ _ _ _ L'), Z.mul_0_l, Z.add_0_r.
    split; [reflexivity|eapply zv_var; eauto].
  - rewrite (eval_var_expr _ _ _ _ _ _ _ _ V) in H. unfold eval_var in H. unfold seen in L. rewrite L in H. cbn [bind] in H.
    destruct n as [|n]; [discriminate|].
    destruct (eval_expr n sc false cast true a) as [[[c0 k0] u0]|er] eqn:E.
    2:{ rewrite (eval_no_missing _ _ _ _ _ _ E) in H. discriminate. }
    injection H as <- <- <-. destruct (IHn n ltac:(lia) _ _ _ _ _ _ _ U NU E) as (cz & kz & A1 & A2 & A3 & A4 & A5 & A6).
    exists cz, kz. do 4 (split; [assumption|]).
    split; [intros y; eapply zv_abbrev; eauto using assume_other|].
    intros sc' y cast' S K. destruct (A6 sc' y cast' S K) as [B1 B2].
    assert (seen sc' x ix (VExpr a)) as L' by (apply K; [exact L|discriminate]).
    split; [|eapply zv_abbrev; eauto].
    rewrite (eval_var_expr _ _ _ _ _ _ _ _ V). unfold eval_var. unfold seen in L'. rewrite L'. cbn [bind]. rewrite B1. reflexivity.
  - rewrite (eval_var_expr _ _ _ _ _ _ _ _ V) in H. unfold eval_var in H. unfold seen in L.
    destruct (get_raw sc false (fst u) (snd u)) as [w|er] eqn:G; [destruct (L w eq_refl)|]. cbn [bind] in H.
    destruct (missing true er); [|discriminate]. injection H as <- <- <-. exists 0, 1. do 2 (split; [reflexivity|]).
    split; [discriminate|]. split; [intros w W; injection W as <-; destruct u; reflexivity|].
    replace (fun x : Z => 0 + 1 * x) with (fun x : Z => 0 + 1 * x) by reflexivity.
    split; [intros x; rewrite Z.mul_1_l, Z.add_0_l; eapply zv_var; [exact V|left; split; [destruct u; reflexivity|reflexivity]]|].
    intros sc' x cast' S K. rewrite Z.mul_1_l, Z.add_0_l. rewrite (eval_var_expr _ _ _ _ _ _ _ _ V), (var_value _ _ _ _ _ _ _ _ S).
    split; [reflexivity|eapply zv_var; eauto].
  - rewrite eval_expr_eq in H. cbv zeta in H. destruct (eval_expr n sc false cast true a) as [[[c1 k1] u1]|] eqn:E; [|discriminate].
    destruct (IHa _ _ _ eq_refl) as (cz & kz & -> & -> & A3 & A4 & A5 & A6). cbn [bind math_neg vint n_neg] in H. injection H as <- <- <-.
    exists (- cz), (- kz). do 2 (split; [reflexivity|]). split; [intros Q; specialize (A3 Q); lia|]. split; [exact A4|].
    split; [intros x; replace (- cz + - kz * x) with (- (cz + kz * x)) by ring; constructor; apply A5|].
    intros sc' x cast' S K. destruct (A6 sc' x cast' S K) as [B1 B2]. replace (- cz + - kz * x) with (- (cz + kz * x)) by ring.
    split; [rewrite eval_expr_eq; cbv zeta; rewrite B1; reflexivity|constructor; exact B2].
  - rewrite eval_expr_eq in H. cbv zeta in H. destruct (eval_expr n sc false cast true a) as [[[c1 k1] u1]|] eqn:E1; [|discriminate].
    destruct (eval_expr n sc false cast true b) as [[[c2 k2] u2]|] eqn:E2; cbn [bind] in H; [|discriminate].
    destruct (IHa _ _ _ eq_refl) as (cz & kz & -> & -> & A3 & A4 & A5 & A6).
    destruct (IHb _ _ _ eq_refl) as (dz & lz & -> & -> & B3 & B4 & B5 & B6).
    rewrite !coef0_int in H. destruct (negb (kz =? 0) && negb (lz =? 0)) eqn:Q; [discriminate|].
    cbn [math_add math_op vint n_add arith bind] in H. injection H as <- <- <-.
    exists (cz + dz), (kz + lz). do 2 (split; [reflexivity|]).
    split. { destruct (Z.eqb_spec kz 0); intros QQ; [specialize (B3 QQ); lia|specialize (A3 QQ); lia]. }
    split. { destruct (kz =? 0); assumption. }
    split. { intros x. replace (cz + dz + (kz + lz) * x) with ((cz + kz * x) + (dz + lz * x)) by ring. constructor; auto. }
    intros sc' x cast' S K. destruct (A6 sc' x cast' S K) as [C1 C2]. destruct (B6 sc' x cast' S K) as [D1 D2].
    replace (cz + dz + (kz + lz) * x) with ((cz + kz * x) + (dz + lz * x)) by ring.
    split; [rewrite eval_expr_eq; cbv zeta; rewrite C1, D1; reflexivity|constructor; assumption].
  - rewrite eval_expr_eq in H. cbv zeta in H. destruct (eval_expr n sc false cast true a) as [[[c1 k1] u1]|] eqn:E1; [|discriminate].
    destruct (eval_expr n sc false cast true b) as [[[c2 k2] u2]|] eqn:E2; cbn [bind] in H; [|discriminate].
    destruct (IHa _ _ _ eq_refl) as (cz & kz & -> & -> & A3 & A4 & A5 & A6).
    destruct (IHb _ _ _ eq_refl) as (dz & lz & -> & -> & B3 & B4 & B5 & B6).
    rewrite !coef0_int in H. destruct (negb (kz =? 0) && negb (lz =? 0)) eqn:Q; [discriminate|].
    cbn [math_sub math_op vint n_sub arith bind] in H. injection H as <- <- <-.
    exists (cz - dz), (kz - lz). do 2 (split; [reflexivity|]).
    split. { destruct (Z.eqb_spec kz 0); intros QQ; [specialize (B3 QQ); lia|specialize (A3 QQ); lia]. }
    split. { destruct (kz =? 0); assumption. }
    split. { intros x. replace (cz - dz + (kz - lz) * x) with ((cz + kz * x) - (dz + lz * x)) by ring. constructor; auto. }
    intros sc' x cast' S K. destruct (A6 sc' x cast' S K) as [C1 C2]. destruct (B6 sc' x cast' S K) as [D1 D2].
    replace (cz - dz + (kz - lz) * x) with ((cz + kz * x) - (dz + lz * x)) by ring.
    split; [rewrite eval_expr_eq; cbv zeta; rewrite C1, D1; reflexivity|constructor; assumption].
  - rewrite eval_expr_eq in H. cbv zeta in H. destruct (eval_expr n sc false cast true a) as [[[c1 k1] u1]|] eqn:E1; [|discriminate].
    destruct (eval_expr n sc false cast true b) as [[[c2 k2] u2]|] eqn:E2; cbn [bind] in H; [|discriminate].
    destruct (IHa _ _ _ eq_refl) as (cz & kz & -> & -> & A3 & A4 & A5 & A6).
    destruct (IHb _ _ _ eq_refl) as (dz & lz & -> & -> & B3 & B4 & B5 & B6).
    rewrite !coef0_int in H. destruct (Z.eqb_spec kz 0) as [->|NK]; cbn [negb andb] in H.
    + cbn [math_mul math_op vint n_mul arith bind] in H. injection H as <- <- <-.
      exists (cz * dz), (cz * lz). do 2 (split; [reflexivity|]).
      split. { intros QQ; specialize (B3 QQ); lia. } split; [assumption|].
      assert (R : forall x, cz * dz + cz * lz * x = (cz + 0 * x) * (dz + lz * x)) by (intros; ring).
      split. { intros x. rewrite R. constructor; auto. }
      intros sc' x cast' S K. destruct (A6 sc' x cast' S K) as [C1 C2]. destruct (B6 sc' x cast' S K) as [D1 D2].
      rewrite R. split; [rewrite eval_expr_eq; cbv zeta; rewrite C1, D1; cbn [bind]; rewrite coef0_int; cbn [math_mul math_op vint n_mul arith bind Z.eqb negb andb]; rewrite Z.mul_0_r; reflexivity|constructor; assumption].
    + destruct (Z.eqb_spec lz 0) as [->|]; cbn [negb] in H; [|discriminate].
      cbn [math_mul math_op vint n_mul arith bind] in H. injection H as <- <- <-.
      exists (cz * dz), (kz * dz). do 2 (split; [reflexivity|]).
      split. { intros QQ; specialize (A3 QQ); lia. } split; [assumption|].
      assert (R : forall x, cz * dz + kz * dz * x = (cz + kz * x) * (dz + 0 * x)) by (intros; ring).
      split. { intros x. rewrite R. constructor; auto. }
      intros sc' x cast' S K. destruct (A6 sc' x cast' S K) as [C1 C2]. destruct (B6 sc' x cast' S K) as [D1 D2].
      rewrite R. split; [rewrite eval_expr_eq; cbv zeta; rewrite C1, D1; cbn [bind]; rewrite coef0_int; cbn [math_mul math_op vint n_mul arith bind Z.eqb negb andb]; rewrite Z.mul_0_r; reflexivity|constructor; assumption].
Qed.

Lemma solve_int c0 k0 z v : Z.abs (z - c0) < 2 ^ 53 -> Z.abs k0 < 2 ^ 53 ->
  solve true (vint c0) (vint k0) (vint z) = Ok v -> exists q, v = vint q /\ z = c0 + k0 * q.
Proof.
  intros B1 B2. unfold solve. change (val_eqZ (vint c0) 0) with (coef0 (vint c0)). rewrite coef0_int.
  assert (val_eqZ (vint k0) 1 = (k0 =? 1)) as ->.
  { unfold val_eqZ, vint, num_eqb, num_cmp. cbn [sf_of num_num num_den]. rewrite !Z.mul_1_r, Z.eqb_compare. destruct (k0 ?= 1); reflexivity. }
  destruct (Z.eqb_spec c0 0) as [->|N]; [destruct (Z.eqb_spec k0 1) as [->|N]|]; cbn [andb].
  - intros H. injection H as <-. exists z. split; [reflexivity|ring].
  - cbn [math_sub math_op vint n_sub arith bind math_div]. intros H. dbind H. injection H as <-.
    destruct (int_div_exact _ _ _ B1 B2 E) as (q & -> & Q). exists q. split; [reflexivity|lia].
  - cbn [math_sub math_op vint n_sub arith bind math_div]. intros H. dbind H. injection H as <-.
    destruct (int_div_exact _ _ _ B1 B2 E) as (q & -> & Q). exists q. split; [reflexivity|lia].
Qed.

Theorem field_inverted en e u z s s' v : o_all (ps_opts s) = false ->
  unknown_in (seen (scope_of s)) u e -> (forall w, ~ seen (scope_of s) (fst u) (snd u) w) ->
  exact_range (seen (scope_of s)) u e z ->
  map_field en (vint z) e s = (Ok false, s') -> seen (scope_of s') (fst u) (snd u) v ->
  zeval (seen (scope_of s')) e z /\ eval_known (e_depth en) (scope_of s') false false e = Ok (vint z).
Proof.
  intros O U NU R H V. unfold map_field in H. rewrite O in H. cbn [negb] in H.
  destruct (eval_expr (e_depth en) (scope_of s) false true true e) as [[[c k] uo]|er] eqn:E.
  2:{ destruct er; discriminate H. }
  destruct (eval_linear _ _ _ _ _ _ _ _ U NU E) as (c0 & k0 & -> & -> & A3 & A4 & A5 & A6).
  destruct uo as [w|].
  2:{ destruct (negb _); [discriminate|]. destruct (check_value _ _ _ _); [|discriminate]. injection H as <-. destruct (NU _ V). }
  rewrite (A4 w eq_refl) in *. clear w A4 A3.
  destruct (eval_unknown _ _ _ _ _ _ _ _ E) as (er & G & M).
  destruct (R _ _ (A5 0) (A5 1)) as [B1 B2].
  destruct (solve true (vint c0) (vint k0) (vint z)) as [w|] eqn:SO; [|discriminate].
  destruct (solve_int c0 k0 z w ltac:(lia) ltac:(lia) SO) as (q & -> & Q).
  unfold mbind in H. destruct (set_var u (vint q) s) as [[[]|] s1] eqn:SV; [|discriminate]. injection H as <-.
  destruct (set_var_seen _ _ _ _ _ SV G M) as (S1 & S2 & _).
  destruct (A6 _ q false S1 S2) as [C1 C2]. rewrite Q. split; [exact C2|]. unfold eval_known. rewrite C1. reflexivity.
Qed.

Theorem variable_stored en e x ix v s s' : variable e x ix ->
  (forall w, ~ seen (scope_of s) x ix w) -> map_field en v e s = (Ok false, s') -> seen (scope_of s') x ix v.
Proof.
  intros V NU H. unfold map_field in H. rewrite (eval_var_expr _ _ _ _ _ _ _ _ V) in H. unfold eval_var in H.
  destruct (get_raw (scope_of s) false x ix) as [w|er] eqn:G; [destruct (NU w G)|]. cbn [bind] in H.
  destruct (missing true er) eqn:M; [|destruct er; discriminate].
  cbn [coef0] in H. change (solve _ (vint 0) (vint 1) v) with (@Ok val v) in H. cbv iota in H.
  unfold mbind in H. destruct (set_var (x, ix) v s) as [[[]|] s1] eqn:SV; [|discriminate]. injection H as <-.
  exact (proj1 (set_var_seen _ _ _ _ _ SV G M)).
Qed.

(** ** C24: known fields are compared *)

Lemma num_eqb_rel a b : num_eqb a b = true <-> rel_num REq a b.
Proof.
  pose proof (val_cmp_spec REq (VNum a) (VNum b) (num_eqb a b)) as H. cbn [val_cmp] in H. rewrite val_eqb_num in H.
  exact (H eq_refl).
Qed.

Lemma val_eqb_same : forall a b, val_eqb a b = true -> same_value false a b.
Proof.
  fix IH 1. intros a b. destruct a as [x|x|x| | | | |], b as [y|y|y| | | | |]; try discriminate.
  - rewrite val_eqb_num. intros H. constructor. apply num_eqb_rel. exact H.
  - cbn [val_eqb]. intros H. apply str_eqb_eq in H. subst. constructor. reflexivity.
  - intros H. constructor. revert y H.
    induction x as [|u x IHx]; intros [|v y] H; cbn [val_eqb] in H; try discriminate; constructor.
    + apply andb_true_iff in H. apply IH. exact (proj1 H).
    + apply IHx. apply andb_true_iff in H. exact (proj2 H).
Qed.

Lemma all_close_same l : forall m, length l = length m -> all_close (combine l m) = Ok true -> Forall2 (same_value true) l m.
Proof.
  induction l as [|x l IH]; intros [|y m] L H; try discriminate; constructor.
  - cbn [combine all_close] in H. destruct x, y; try discriminate. cbn [as_num bind] in H. dbind H. dbind H.
    injection H as H. apply andb_true_iff in H as [-> ->]. constructor. exact E.
  - apply IH; [injection L; auto|]. cbn [combine all_close] in H. destruct x, y; try discriminate. cbn [as_num bind] in H. dbind H. dbind H.
    injection H as H. apply andb_true_iff in H as [-> ->]. reflexivity.
Qed.

Lemma check_accepted o e src exp : check_value o e src exp = Ok tt -> accepted o e src exp.
Proof.
  unfold check_value. destruct (negb (same_size src exp)); [discriminate|]. intros H.
  assert (exists m, (if o_fuzzy o then do c <- math_allclose src exp; Ok (negb c) else Ok (negb (val_eqb src exp))) = Ok m) as [m M].
  { destruct (if o_fuzzy o then _ else _); [eauto|discriminate H]. }
  rewrite M in H. cbn [bind] in H. destruct m; cbn [negb] in H.
  - destruct (o_zero o && val_eqZ exp 0) eqn:Z1.
    { apply andb_true_iff in Z1 as [Z1 Z2]. apply ac_zero; [exact Z1|]. destruct exp; try discriminate. cbn [rel_val vint].
      apply num_eqb_rel. exact Z2. }
    destruct (o_number o && has_desired e) eqn:Z2. { apply andb_true_iff in Z2 as [? ?]. apply ac_number; assumption. }
    destruct (o_varspec o && has_incons e) eqn:Z3. { apply andb_true_iff in Z3 as [? ?]. apply ac_varspec; assumption. }
    destruct (o_all o) eqn:Z4; [|discriminate]. apply ac_lookahead; assumption.
  - apply ac_same. destruct (o_fuzzy o).
    + dbind M. destruct a; [|discriminate]. unfold math_allclose in E. destruct src, exp; try discriminate E.
      * constructor. exact E.
      * destruct (Nat.eqb_spec (length l) (length l0)); [|discriminate]. constructor. apply all_close_same; assumption.
    + injection M as M. apply val_eqb_same. destruct (val_eqb src exp); [reflexivity|discriminate].
Qed.

Lemma map_field_keeps en src e s b s' : map_field en src e s = (Ok b, s') ->
  keeps_seen (scope_of s) (scope_of s') /\ exists d, s' = set_dic d s.
Proof.
  assert (SD : s = set_dic (ps_dic s) s) by (destruct s; reflexivity).
  unfold map_field. destruct (eval_expr _ _ _ _ _ _) as [[[c k] [u|]]|er] eqn:E.
  - destruct (solve _ _ _ _) as [v|]; [|discriminate]. unfold mbind. destruct (set_var u v s) as [[[]|] s1] eqn:SV; [|discriminate].
    intros H. injection H as <- <-. destruct (eval_unknown _ _ _ _ _ _ _ _ E) as (er & G & M).
    exact (proj2 (set_var_seen _ _ _ _ _ SV G M)).
  - cbv zeta; destruct (negb (coef0 k)); [discriminate|]. destruct (check_value _ _ _ _); [|discriminate]. intros H. injection H as <- <-.
    split; [apply keeps_seen_refl|eauto].
  - destruct er; try discriminate. intros H. injection H as <- <-. split; [apply keeps_seen_refl|eauto].
Qed.

(** what holds of two states of a record *)
Definition later (s s' : pstate) : Prop := keeps_seen (scope_of s) (scope_of s') /\ exists d, s' = set_dic d s.
Lemma later_refl s : later s s.
Proof. split; [apply keeps_seen_refl|]. exists (ps_dic s). destruct s; reflexivity. Qed.
Lemma later_trans a b c : later a b -> later b c -> later a c.
Proof. intros [K1 (d1 & ->)] [K2 (d2 & ->)]. split; [eapply keeps_seen_trans; eauto|]. exists d2. reflexivity. Qed.

Lemma map_fields_each en fs : forall s b s', map_fields en fs s = (Ok b, s') ->
  later s s' /\ forall src e, In (src, e) fs ->
    exists s1 b1 s2, later s s1 /\ map_field en src e s1 = (Ok b1, s2) /\ later s2 s'.
Proof.
  induction fs as [|[src e] fs IH]; cbn [map_fields]; intros s b s' H.
  - injection H as <- <-. split; [apply later_refl|contradiction].
  - apply mbind_ok in H as (b1 & s1 & H1 & H). apply mbind_ok in H as (b2 & s2 & H2 & H). injection H as <- <-.
    destruct (IH _ _ _ H2) as [L2 A2]. pose proof (map_field_keeps _ _ _ _ _ _ H1) as L1. split; [eapply later_trans; eauto|].
    intros src0 e0 [I|I].
    + injection I as <- <-. exists s, b1, s1. split; [apply later_refl|]. split; assumption.
    + destruct (A2 _ _ I) as (t1 & c1 & t2 & B1 & B2 & B3). exists t1, c1, t2. split; [eapply later_trans; eauto|]. split; assumption.
Qed.

Lemma map_tries_later en n fs : forall s s', map_tries en n fs s = (Ok tt, s') -> later s s'.
Proof.
  induction n as [|n IH]; cbn [map_tries]; intros s s' H; [discriminate|].
  apply mbind_ok in H as (b1 & s1 & H1 & H). pose proof (proj1 (map_fields_each _ _ _ _ _ H1)) as L.
  destruct b1; [|injection H as <-; exact L]. eapply later_trans; eauto.
Qed.

Lemma map_read_each en fs s s' : map_read en fs s = (Ok tt, s') ->
  later s s' /\ forall src e, In (src, e) fs ->
    exists s1 b1 s2, later s s1 /\ map_field en src e s1 = (Ok b1, s2) /\ later s2 s'.
Proof.
  intros H. split; [eapply map_tries_later; exact H|]. intros src e I. unfold map_read in H. cbn [map_tries] in H.
  apply mbind_ok in H as (b1 & s1 & H1 & H). destruct (map_fields_each _ _ _ _ _ H1) as [L A].
  destruct (A _ _ I) as (t1 & c1 & t2 & B1 & B2 & B3). exists t1, c1, t2. split; [exact B1|]. split; [exact B2|].
  destruct b1; [|injection H as <-; exact B3]. eapply later_trans; [exact B3|].
  eapply (map_tries_later en 2). exact H.
Qed.

Lemma later_opts s s' : later s s' -> ps_opts s' = ps_opts s.
Proof. intros [_ (d & ->)]. reflexivity. Qed.

(** the value of a field expression; quotients of integers must be integers *)
Theorem known_checked en fs s s' src e c : map_read en fs s = (Ok tt, s') -> In (src, e) fs ->
  eval_known (e_depth en) (scope_of s) false true e = Ok c -> no_array c -> accepted (ps_opts s) e src c.
Proof.
  intros H I V N. destruct (o_all (ps_opts s)) eqn:OA; [apply ac_lookahead; exact OA|].
  destruct (map_read_each _ _ _ _ H) as [_ A]. destruct (A _ _ I) as (s1 & b1 & s2 & L1 & F & L2).
  pose proof (later_opts _ _ L1) as O1. unfold eval_known in V. dbind V. destruct a as [[c0 k] u]. injection V as <-.
  destruct (eval_keeps _ _ _ _ _ _ _ _ (proj1 L1) E N) as [-> Q].
  unfold map_field in F. rewrite O1, OA in F. cbn [negb] in F. rewrite Q in F.
  destruct (negb (coef0 k)); [discriminate|]. destruct (check_value (ps_opts s) e src c0) as [[]|] eqn:CV; [|discriminate].
  apply check_accepted. exact CV.
Qed.

Lemma zeval_eval n : forall sc cast acc e z, zeval (seen sc) e z ->
  match eval_expr n sc false cast acc e with
  | Ok t => t = (vint z, vint 0, None)
  | Err er => er = RecursionError
  end.
Proof.
  induction n as [n IHn] using (well_founded_induction PeanoNat.Nat.lt_wf_0). intros sc cast acc e z U.
  induction U as [d z|e x ix z V L|e x ix a z V L U _|a x U IHa|a b x y U1 IHa U2 IHb|a b x y U1 IHa U2 IHb|a b x y U1 IHa U2 IHb].
  - rewrite eval_expr_eq. reflexivity.
  - rewrite (eval_var_expr _ _ _ _ _ _ _ _ V), (var_value _ _ _ _ _ _ _ _ L). reflexivity.
  - rewrite (eval_var_expr _ _ _ _ _ _ _ _ V). unfold eval_var. unfold seen in L. rewrite L. cbn [bind].
    assert (MR : missing acc RecursionError = false) by (destruct acc; reflexivity).
    destruct n as [|n]; [rewrite MR; reflexivity|].
    pose proof (IHn n ltac:(lia) sc cast acc a z U) as Q. destruct (eval_expr n sc false cast acc a) as [t|er]; [exact Q|].
    subst er. rewrite MR. reflexivity.
  - rewrite eval_expr_eq. cbv zeta. destruct (eval_expr n sc false cast acc a); cbn [bind]; [subst; reflexivity|assumption].
  - rewrite eval_expr_eq. cbv zeta. destruct (eval_expr n sc false cast acc a); cbn [bind]; [subst|assumption].
    destruct (eval_expr n sc false cast acc b); cbn [bind]; [|assumption]. subst. reflexivity.
  - rewrite eval_expr_eq. cbv zeta. destruct (eval_expr n sc false cast acc a); cbn [bind]; [subst|assumption].
    destruct (eval_expr n sc false cast acc b); cbn [bind]; [|assumption]. subst. reflexivity.
  - rewrite eval_expr_eq. cbv zeta. destruct (eval_expr n sc false cast acc a); cbn [bind]; [subst|assumption].
    destruct (eval_expr n sc false cast acc b); cbn [bind]; [|assumption]. subst. cbn [bind]. rewrite !coef0_int.
    cbn [math_mul math_op vint n_mul arith bind Z.eqb negb andb]. rewrite Z.mul_0_r. reflexivity.
Qed.

Lemma zeval_keeps sc sc' e z : keeps_seen sc sc' -> zeval (seen sc) e z -> zeval (seen sc') e z.
Proof.
  intros K. induction 1; try (constructor; assumption).
  - eapply zv_var; [eassumption|]. apply K; [assumption|discriminate].
  - eapply zv_abbrev; [eassumption| |eassumption]. apply K; [assumption|discriminate].
Qed.

Theorem integer_checked en fs s s' src e z : map_read en fs s = (Ok tt, s') -> In (src, e) fs ->
  zeval (seen (scope_of s)) e z -> accepted (ps_opts s) e src (vint z).
Proof.
  intros H I V. destruct (map_read_each _ _ _ _ H) as [_ A]. destruct (A _ _ I) as (s1 & b1 & s2 & L1 & F & L2).
  pose proof (later_opts _ _ L1) as O1. apply (zeval_keeps _ (scope_of s1)) in V; [|exact (proj1 L1)].
  unfold map_field in F. rewrite O1 in F.
  pose proof (zeval_eval (e_depth en) _ (negb (o_all (ps_opts s))) true _ _ V) as Q.
  destruct (eval_expr _ _ _ _ _ _) as [t|er]; [subst t|subst er; discriminate].
  rewrite coef0_int in F. cbn [Z.eqb negb] in F. destruct (check_value (ps_opts s) e src (vint z)) as [[]|] eqn:CV; [|discriminate].
  apply check_accepted. exact CV.
Qed.

Lemma get_raw_several sc lu x ix : get_raw sc lu x ix <> Err SeveralUnboundVariablesError.
Proof.
  assert (AG : forall l v, array_get v l <> Err SeveralUnboundVariablesError).
  { induction l as [|i l IH]; intros v; cbn [array_get]; [discriminate|]. destruct v; try discriminate.
    - destruct (existsb _ _); [|discriminate]. unfold list_index. destruct (_ || _); cbn [bind]; [discriminate|].
      destruct (nth_error _ _); cbn [bind]; [apply IH|discriminate].
    - destruct (dget _ _); [apply IH|discriminate]. }
  unfold get_raw. destruct (lget x _), (dget _ _); try discriminate;
    (destruct (if lu then _ else _); [|discriminate]); destruct ix as [|i ix]; try discriminate;
    (destruct (mapM (get_indexvalue (sc_loops sc)) (i :: ix)) as [l|er] eqn:E; cbn [bind]; [apply AG|]);
    intros H; injection H as ->; revert E; generalize (i :: ix); clear;
    (induction l as [|q l IH]; cbn [mapM]; [discriminate|]); destruct q as [y|[z|f|f o]]; cbn [get_indexvalue bind];
    try (destruct (lget y _)); cbn [bind]; try discriminate;
    (destruct (mapM _ l) eqn:E2; cbn [bind]; [discriminate|]); intros H; apply IH; exact H.
Qed.

Theorem repeated_checked en fs s s' src e x ix v : map_read en fs s = (Ok tt, s') -> In (src, e) fs ->
  variable e x ix -> no_array src -> seen (scope_of s') x ix v -> (forall a, v <> VExpr a) ->
  v = src \/ accepted (ps_opts s) e src v.
Proof.
  intros H I V NS S NE. destruct (map_read_each _ _ _ _ H) as [_ A]. destruct (A _ _ I) as (s1 & b1 & s2 & L1 & F & L2).
  pose proof (later_opts _ _ L1) as O1. pose proof F as F'. unfold map_field in F.
  rewrite (eval_var_expr _ _ _ _ _ _ _ _ V) in F. unfold eval_var in F.
  destruct (get_raw (scope_of s1) false x ix) as [w|er] eqn:G; cbn [bind] in F.
  - pose proof (map_field_keeps _ _ _ _ _ _ F') as K. fold (later s1 s2) in K. pose proof (later_trans _ _ _ K L2) as [K2 _].
    assert (AR : no_array w -> w = v).
    { intros N. pose proof (K2 _ _ _ G N) as G2. unfold seen in S. congruence. }
    assert (CH : no_array w -> (forall a, w <> VExpr a) -> v = src \/ accepted (ps_opts s) e src v).
    { intros N1 N2. right. rewrite <- (AR N1). apply check_accepted. rewrite <- O1.
      destruct w; try (destruct (N2 _ eq_refl)); try (destruct (N1 _ eq_refl)); cbv iota in F;
        change (coef0 (vint 0)) with true in F; cbn [negb] in F; destruct (check_value _ _ _ _) as [[]|]; try discriminate; reflexivity. }
    destruct w; try (apply CH; intros ? ?; discriminate).
    + right. cbv iota in F. change (coef0 (vint 0)) with true in F. cbn [negb] in F.
      destruct (check_value (ps_opts s1) e src (VDict d)) as [[]|] eqn:CV; [|discriminate]. apply check_accepted in CV. rewrite O1 in CV.
      inversion CV as [SV|Z1 Z2|Z1 Z2|Z1 Z2|Z1].
      * inversion SV.
      * cbn in Z2; discriminate Z2.
      * apply ac_number; assumption.
      * apply ac_varspec; assumption.
      * apply ac_lookahead; assumption.
    + destruct (NE e0). symmetry. apply AR. intros ? ?; discriminate.
  - destruct (missing true er) eqn:M; [|destruct er; try discriminate; destruct (get_raw_several _ _ _ _ G)].
    change (solve _ (vint 0) (vint 1) src) with (@Ok val src) in F. cbv iota in F.
    unfold mbind in F. destruct (set_var (x, ix) src s1) as [[[]|] s3] eqn:SV; [|discriminate]. injection F as <- <-.
    pose proof (proj1 (set_var_seen _ _ _ _ _ SV G M)) as G2. cbn [fst snd] in G2.
    pose proof (proj1 L2 _ _ _ G2 NS) as G3. left. unfold seen in S. congruence.
Qed.

(** nothing is rejected that the options cover *)
Theorem accepted_passes en e src a b s : o_fuzzy (ps_opts s) = false ->
  src = VNum a -> eval_expr (e_depth en) (scope_of s) false (negb (o_all (ps_opts s))) true e = Ok (VNum b, vint 0, None) ->
  accepted (ps_opts s) e src (VNum b) -> map_field en src e s = (Ok false, s).
Proof.
  intros OF -> E AC. unfold map_field. rewrite E. change (coef0 (vint 0)) with true. cbn [negb].
  unfold check_value. cbn [same_size val_len negb]. rewrite OF. cbn [bind]. destruct (val_eqb (VNum a) (VNum b)) eqn:EQ; [reflexivity|].
  cbn [negb]. destruct AC as [SV|Z1 Z2|Z1 Z2|Z1 Z2|Z1].
  - inversion SV as [x y Q| |]. subst. rewrite OF in Q. apply num_eqb_rel in Q. rewrite val_eqb_num in EQ. congruence.
  - cbn [rel_val vint] in Z2. apply num_eqb_rel in Z2. cbn [val_eqZ]. rewrite Z1, Z2. reflexivity.
  - rewrite Z1, Z2. destruct (_ && _); reflexivity.
  - rewrite Z1, Z2. destruct (_ && _); [reflexivity|]. destruct (_ && _); reflexivity.
  - rewrite Z1. repeat (destruct (_ && _); [reflexivity|]). reflexivity.
Qed.

(** a CONT or HEAD record *)
Theorem cont_checked en head cs f s s' : e_write en = false -> ps_look s = None ->
  exec en (ICont head cs f) s = (Ok tt, s') ->
  exists o r c, skip_blank_lines (ps_lines s) (ps_ofs s) = Ok o /\
    read_cont (e_ro en) (ps_lines s) o = Ok (r, c, S o) /\
    forall src e, In (src, e) (combine (cont_vals r) (fields_list f)) ->
      (forall z, zeval (seen (scope_of s)) e z -> accepted (ps_opts s) e src (vint z)) /\
      (forall v, eval_known (e_depth en) (scope_of s) false true e = Ok v -> no_array v -> accepted (ps_opts s) e src v).
Proof.
  intros W L H. change (exec en (ICont head cs f)) with (guarded true (do_cont en head cs f)) in H.
  rewrite proceed_none in H by exact L. unfold do_cont in H. rewrite W in H.
  apply mbind_ok in H as ([r c] & s1 & H1 & H). unfold read_with in H1.
  destruct (skip_blank_lines (ps_lines s) (ps_ofs s)) as [o|] eqn:SB; [|discriminate].
  destruct (read_cont (e_ro en) (ps_lines s) o) as [[[r0 c0] o']|] eqn:RC; [|discriminate].
  injection H1 as -> -> <-. apply mbind_ok in H as ([] & s2 & H2 & H). injection H2 as H2 <-.
  apply mbind_ok in H as ([] & s3 & H3 & H).
  exists o, r, c. split; [reflexivity|]. split. { destruct (read_cont_adv _ _ _ _ _ RC) as [_ ->]. exact RC. }
  intros src e I. split.
  - intros z V. exact (integer_checked _ _ _ _ _ _ _ H3 I V).
  - intros v V N. exact (known_checked _ _ _ _ _ _ _ H3 I V N).
Qed.

(** ** C22: the fields of a TEXT record *)

Lemma set_var_get x ix v s s' : set_var (x, ix) v s = (Ok tt, s') ->
  (exists d, s' = set_dic d s /\ forall y, y <> x -> dget (KStr y) d = dget (KStr y) (ps_dic s)) /\
  (lget x (ps_loops s) = None -> forall sc lu, sc_loops sc = ps_loops s -> dget (KStr x) (sc_dic sc) = dget (KStr x) (ps_dic s') ->
     get_raw sc lu x ix = Ok v).
Proof.
  intros H. unfold set_var in H. 
  assert (exists w, s' = set_dic (dset (KStr x) w (ps_dic s)) s /\
    match ix with [] => w = v | _ => exists idcs, mapM (get_indexvalue (ps_loops s)) ix = Ok idcs /\ array_get w idcs = Ok v end) as (w & -> & W).
  { destruct ix as [|i ir]; [injection H as <-; eauto|].
    destruct (mapM (get_indexvalue (ps_loops s)) (i :: ir)) as [idcs|] eqn:MI; cbn [bind] in H; [|discriminate].
    match type of H with match ?m with _ => _ end = _ => destruct m as [arr|] eqn:SI; [|discriminate] end.
    injection H as <-. exists arr. split; [reflexivity|]. exists idcs. split; [reflexivity|]. eapply set_indexed_same; eauto. }
  split. { eexists. split; [reflexivity|]. intros y N. rewrite dget_dset_other; [reflexivity|congruence]. }
  intros L sc lu EL ED. cbn [set_dic ps_dic] in ED. rewrite dget_dset_same in ED. unfold get_raw. rewrite EL, L, ED.
  assert ((if lu then find_up x (sc_dic sc) (sc_up sc) else Some w) = Some w) as ->.
  { destruct lu; [|reflexivity]. destruct (sc_up sc); cbn [find_up]; rewrite ED; reflexivity. }
  destruct ix as [|i ir]; [subst; reflexivity|]. destruct W as (idcs & -> & W). exact W.
Qed.

Lemma text_read_kept fs : forall full pos s s', text_read fs full pos s = (Ok tt, s') ->
  exists d, s' = set_dic d s /\ forall y, ~ In y (text_names fs) -> dget (KStr y) d = dget (KStr y) (ps_dic s).
Proof.
  induction fs as [|[[[x ix]|] len] fs IH]; cbn [text_read text_names flat_map fst app]; intros full pos s s' H.
  - injection H as <-. exists (ps_dic s). split; [destruct s; reflexivity|auto].
  - destruct (Nat.leb _ _); [discriminate|]. apply mbind_ok in H as ([] & s1 & H1 & H).
    destruct (proj1 (set_var_get _ _ _ _ _ H1)) as (d1 & -> & K1). destruct (IH _ _ _ _ H) as (d2 & -> & K2).
    exists d2. split; [reflexivity|]. intros y N. rewrite K2, <- K1; [reflexivity| |]; intros Q; apply N; [left; auto|right; exact Q].
  - destruct (Nat.leb _ _); [discriminate|]. apply mbind_ok in H as ([] & s1 & H1 & H). injection H1 as <-. eauto.
Qed.

Theorem text_read_write en fs : forall n full pos s s', fills fs n -> NoDup (text_names fs) ->
  (forall x, In x (text_names fs) -> lget x (ps_loops s) = None) ->
  (pos + n = length full)%nat -> text_read fs full pos s = (Ok tt, s') ->
  text_write en (scope_of s') fs = Ok (skipn pos full).
Proof.
  intros n full pos s s' F. revert full pos s s'.
  assert (PIECE : forall x len n fs full pos s s1 s', len = None \/ len = Some n ->
    (match len with Some m => (pos + m)%nat | None => length full end <= length full)%nat ->
    set_var x (VStr (slice pos match len with Some m => (pos + m)%nat | None => length full end full)) s = (Ok tt, s1) ->
    text_read fs full match len with Some m => (pos + m)%nat | None => length full end s1 = (Ok tt, s') ->
    ~ In (fst x) (text_names fs) -> lget (fst x) (ps_loops s) = None ->
    text_piece en (scope_of s') (Some x, len) = Ok (slice pos match len with Some m => (pos + m)%nat | None => length full end full)).
  { intros [x ix] len n0 fs0 full pos s s1 s' LE LB SV R N L. cbn [fst] in *.
    destruct (set_var_get _ _ _ _ _ SV) as [(d & -> & _) G]. destruct (text_read_kept _ _ _ _ _ R) as (d' & -> & K).
    unfold text_piece, get_varval.
    rewrite (G L (scope_of (set_dic d' (set_dic d s))) true eq_refl) by (cbn [scope_of sc_dic set_dic ps_dic]; apply K; exact N).
    cbn [bind]. destruct LE as [->| ->]; [reflexivity|]. rewrite length_slice.
    replace (Nat.min (pos + n0 - pos) (length full - pos)) with n0 by lia. rewrite PeanoNat.Nat.eqb_refl. reflexivity. }
  induction F as [x n P|x n P|x n r m P F IH]; intros full pos s s' ND NL E R.
  - cbn [text_read] in R. destruct (Nat.leb (length full) pos) eqn:LB; [discriminate|].
    apply mbind_ok in R as ([] & s1 & SV & R). injection R as <-.
    unfold text_write. cbn [mapM]. rewrite (PIECE x None 0%nat [] full pos s s1 s1) by (solve [left; reflexivity | right; reflexivity | lia | exact SV | exact R | apply NL; left; reflexivity | intros [] | reflexivity | assumption]).
    cbn [bind concat]. rewrite app_nil_r. unfold slice. rewrite <- skipn_length, firstn_all. reflexivity.
  - cbn [text_read] in R. destruct (Nat.leb (pos + n) pos) eqn:LB; [discriminate|].
    apply mbind_ok in R as ([] & s1 & SV & R). injection R as <-.
    unfold text_write. cbn [mapM]. rewrite (PIECE x (Some n) n [] full pos s s1 s1) by (solve [left; reflexivity | right; reflexivity | lia | exact SV | exact R | apply NL; left; reflexivity | intros [] | reflexivity | assumption]).
    cbn [bind concat]. rewrite app_nil_r, E. unfold slice. rewrite <- skipn_length, firstn_all. reflexivity.
  - cbn [text_read] in R. destruct (Nat.leb (pos + n) pos) eqn:LB; [discriminate|].
    apply mbind_ok in R as ([] & s1 & SV & R).
    cbn [text_names flat_map fst app] in ND, NL. fold (text_names r) in ND, NL. inversion ND as [|? ? NI ND']. subst.
    unfold text_write. cbn [mapM]. rewrite (PIECE x (Some n) n r full pos s s1 s') by (solve [left; reflexivity | right; reflexivity | lia | exact SV | exact R | apply NL; left; reflexivity | intros [] | reflexivity | assumption]).
    assert (text_write en (scope_of s') r = Ok (skipn (pos + n) full)) as W.
    { apply (IH full (pos + n)%nat s1 s'); auto; [|lia]. intros y Y. destruct x as [x ix].
      destruct (proj1 (set_var_get _ _ _ _ _ SV)) as (d & -> & _). apply NL. right. exact Y. }
    unfold text_write in W. destruct (mapM (text_piece en (scope_of s')) r) as [ps|]; cbn [bind] in W |- *; [|discriminate].
    injection W as W. cbn [concat]. rewrite W. f_equal. unfold slice. replace (pos + n - pos)%nat with n by lia.
    replace (skipn (pos + n) full) with (skipn n (skipn pos full)); [apply firstn_skipn|].
    clear. revert full. induction pos as [|p IH]; intros full; [reflexivity|]. destruct full; [apply skipn_nil|apply IH].
Qed.

Lemma text_piece_len en sc x n t : text_piece en sc (Some x, Some n) = Ok t -> length t = n.
Proof.
  destruct x as [x ix]. unfold text_piece. intros H. dbind H. destruct a; try discriminate.
  destruct (Nat.eqb_spec (length s) n); [|discriminate]. injection H as <-. assumption.
Qed.

Theorem text_write_lengths en sc fs t : text_write en sc fs = Ok t ->
  forall x n, In (Some x, Some n) fs -> exists p, get_varval (e_depth en) sc true (fst x) (snd x) = Ok (VStr p) /\ length p = n.
Proof.
  unfold text_write. intros H x n I. dbind H. clear H. revert a E. induction fs as [|f fs IH]; intros a E; [contradiction|].
  cbn [mapM] in E. destruct (text_piece en sc f) as [p|] eqn:P; cbn [bind] in E; [|discriminate]. dbind E.
  destruct I as [->|I]; [|eauto].
  exists p. pose proof (text_piece_len _ _ _ _ _ P) as L. split; [|exact L]. destruct x as [x ix]. unfold text_piece in P. cbn [fst snd].
  destruct (get_varval _ _ _ _ _) as [v|]; cbn [bind] in P; [|discriminate]. destruct v; try discriminate.
  destruct (Nat.eqb _ _); [|discriminate]. injection P as ->. reflexivity.
Qed.

Lemma slice_end {A} (p t : list A) b : b = (length p + length t)%nat -> slice (length p) b (p ++ t) = t.
Proof. intros ->. rewrite <- (app_nil_r t) at 2. rewrite slice_at; reflexivity. Qed.

(** the strings found on reading are those that were written *)
Theorem text_write_read en sc fs : forall n pre t s s', fills fs n -> length t = n ->
  NoDup (text_names fs) -> (forall x, In x (text_names fs) -> lget x (ps_loops s) = None) ->
  text_write en sc fs = Ok t -> text_read fs (pre ++ t) (length pre) s = (Ok tt, s') ->
  forall x len, In (Some x, len) fs ->
    exists p, get_varval (e_depth en) sc true (fst x) (snd x) = Ok (VStr p) /\ seen (scope_of s') (fst x) (snd x) (VStr p).
Proof.
  intros n pre t s s' F. revert pre t s s'.
  assert (GV : forall u len p, text_piece en sc (Some u, len) = Ok p -> get_varval (e_depth en) sc true (fst u) (snd u) = Ok (VStr p)).
  { intros [x ix] len p. unfold text_piece. cbn [fst snd]. destruct (get_varval _ _ _ _ _) as [v|]; cbn [bind]; [|discriminate]. destruct v; try discriminate.
    destruct len; [destruct (Nat.eqb _ _); [|discriminate]|]; intros H; injection H as ->; reflexivity. }
  induction F as [u n P|u n P|u n r m P F IH]; intros pre t s s' LT ND NL W R x len I.
  - destruct I as [I|[]]. injection I as <- <-. unfold text_write in W. cbn [mapM] in W. dbind W. dbind E. injection E as <-. injection W as W.
    cbn [concat] in W. rewrite app_nil_r in W. subst a0. exists t. split; [eauto|].
    cbn [text_read] in R. destruct (Nat.leb _ _); [discriminate|]. apply mbind_ok in R as ([] & s1 & SV & R). injection R as <-.
    destruct u as [x ix]. destruct (set_var_get _ _ _ _ _ SV) as [(d & -> & _) G]. cbn [fst snd].
    rewrite (slice_end pre t) in G by apply app_length.
    apply G; try reflexivity. apply NL. left. reflexivity.
  - destruct I as [I|[]]. injection I as <- <-. unfold text_write in W. cbn [mapM] in W. dbind W. dbind E. injection E as <-. injection W as W.
    cbn [concat] in W. rewrite app_nil_r in W. subst a0. exists t. split; [eauto|].
    cbn [text_read] in R. destruct (Nat.leb _ _); [discriminate|]. apply mbind_ok in R as ([] & s1 & SV & R). injection R as <-.
    destruct u as [x ix]. destruct (set_var_get _ _ _ _ _ SV) as [(d & -> & _) G]. cbn [fst snd].
    rewrite (slice_end pre t) in G by lia.
    apply G; try reflexivity. apply NL. left. reflexivity.
  - cbn [text_names flat_map fst app] in ND, NL. fold (text_names r) in ND, NL. inversion ND as [|? ? NI ND']. subst.
    unfold text_write in W. cbn [mapM] in W. dbind W. dbind E. dbind E. injection E as <-. injection W as W. cbn [concat] in W.
    pose proof (text_piece_len _ _ _ _ _ E0) as L0. subst t. rewrite app_length in LT.
    assert (W' : text_write en sc r = Ok (concat a1)) by (unfold text_write; rewrite E1; reflexivity).
    cbn [text_read] in R. destruct (Nat.leb _ _); [discriminate|]. apply mbind_ok in R as ([] & s1 & SV & R).
    rewrite slice_at in SV by (try reflexivity; lia).
    destruct I as [I|I].
    + injection I as <- <-. exists a0. split; [eauto|]. destruct u as [x ix]. cbn [fst snd] in *.
      destruct (set_var_get _ _ _ _ _ SV) as [(d & -> & _) G]. destruct (text_read_kept _ _ _ _ _ R) as (d' & -> & K).
      unfold seen. apply G; [apply NL; left; reflexivity|reflexivity|]. cbn [scope_of sc_dic set_dic ps_dic]. apply K. exact NI.
    + refine (IH (pre ++ a0) (concat a1) s1 s' _ ND' _ W' _ x len I); [lia| |].
      * intros y Y. destruct u as [x0 ix0]. destruct (proj1 (set_var_get _ _ _ _ _ SV)) as (d & -> & _). apply NL. right. exact Y.
      * rewrite app_length, <- app_assoc, L0. exact R.
Qed.
