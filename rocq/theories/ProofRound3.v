(** C31: expressions and fields. *)
From Coq Require Import Ascii String ZArith QArith Bool Lia List.
From Coq Require Import Floats.SpecFloat.
From Verif Require Import PyBase PyFloat ProofFloat ModelFortran ModelRecords ModelNum ModelRecipe ModelInterp.
From Verif Require Import SpecFields SpecInterp SpecRound ProofPyBase ProofRecords ProofInterp ProofInterpCtl ProofInterpSec ProofInterpMap.
From Verif Require Import ProofRound1 ProofRound2.
Import ListNotations.
Open Scope Z_scope.

(** ** Solving for a variable *)

Lemma int_quot_mul k x : k <> 0 -> Z.abs x <= 2 ^ 53 ->
  is_finite (int_quot (k * x) k) = true /\ sf_integral (int_quot (k * x) k) = true /\
  Z.quot (sf_num (int_quot (k * x) k)) (sf_den (int_quot (k * x) k)) = x.
Proof.
  intros Hk Hx. unfold int_quot. set (sg := xorb (k * x <? 0) (k <? 0)).
  rewrite (round64_same sg (Z.abs (k * x)) (Z.abs k) (Z.abs x) 1); [|lia|lia|lia|lia|rewrite Z.abs_mul; ring].
  destruct (round64_int sg (Z.abs x) ltac:(lia)) as [Fin V]. set (f := round64 sg (Z.abs x) 1) in *.
  assert (V' : (ProofFloat.val f == inject_Z x)%Q).
  { rewrite V. unfold sgnQ. destruct (Z.eq_dec x 0) as [->|Nx]; [destruct sg; reflexivity|].
    assert (sg = (x <? 0)) as ->.
    { unfold sg. destruct (Z.ltb_spec x 0), (Z.ltb_spec k 0), (Z.ltb_spec (k * x) 0); try reflexivity; exfalso; nia. }
    destruct (Z.ltb_spec x 0).
    - rewrite Z.abs_neq, inject_Z_opp by lia. ring.
    - rewrite Z.abs_eq by lia. ring. }
  destruct (val_iz_trunc f x Fin V') as [Q Q']. split; [exact Fin|]. split; [|exact Q].
  unfold sf_integral. rewrite Q. apply Z.eqb_eq. now symmetry.
Qed.

Lemma solve_exact a k x : k <> 0 -> Z.abs x <= 2 ^ 53 -> solve true (vint a) (vint k) (vint (a + k * x)) = Ok (vint x).
Proof.
  intros Hk Hx. unfold solve.
  assert (E : forall z y, val_eqZ (vint z) y = (z =? y)).
  { intros z y. unfold val_eqZ, vint, num_eqb, num_cmp. cbn [sf_of num_num num_den]. rewrite !Z.mul_1_r.
    unfold Z.eqb. destruct (Z.compare_spec z y) as [->|H|H].
    - destruct y; cbn; try reflexivity; now rewrite Pos.eqb_refl.
    - symmetry. apply (Z.eqb_neq z y). lia.
    - symmetry. apply (Z.eqb_neq z y). lia. }
  rewrite !E.
  destruct ((a =? 0) && (k =? 1)) eqn:C.
  - apply andb_true_iff in C as [C1 C2]. apply Z.eqb_eq in C1, C2. subst. now replace (0 + 1 * x) with x by lia.
  - unfold math_sub, math_op, vint. cbn [as_num fst snd bind n_sub arith].
    replace (a + k * x - a) with (k * x) by lia. unfold math_div, num_div, n_div.
    rewrite (proj2 (Z.eqb_neq k 0) Hk).
    destruct (int_quot_mul k x Hk Hx) as (F & I & Q). set (f := int_quot (k * x) k) in *.
    destruct f as [?|?| |sg m e] eqn:Ef; try discriminate; cbn [bind]; rewrite I, Q; reflexivity.
Qed.

(** ** Small facts *)

Inductive Forall3 {A B C} (P : A -> B -> C -> Prop) : list A -> list B -> list C -> Prop :=
| F3_nil : Forall3 P [] [] []
| F3_cons a b c l m n : P a b c -> Forall3 P l m n -> Forall3 P (a :: l) (b :: m) (c :: n).

Definition typed (k : kind) (v : val) : Prop :=
  match k with
  | IntV | FltV => exists n, v = VNum n
  | IntL | FltL => exists l, v = VList l
  | _ => False
  end.

(** the working entry with the names of abbreviations does not change *)
Definition abbr_key : key := KStr $"__abbrevs".
Definition abbr_same (a b : dict) : Prop := same_shape (dget abbr_key b) (dget abbr_key a).
Lemma abbr_refl a : abbr_same a a. Proof. now left. Qed.
Lemma abbr_trans a b c : abbr_same a b -> abbr_same b c -> abbr_same a c.
Proof. intros A B. eapply shape_trans; eauto. Qed.
Lemma path_one k d : path_get [k] (VDict d) = dget k d.
Proof. cbn [path_get]. now destruct (dget k d). Qed.
Lemma stored_abbr x l v d d2 : stored (KStr x :: l) v (VDict d) (VDict d2) -> ~ internal x -> abbr_same d d2.
Proof.
  intros [_ B] N. assert (Nk : KStr x <> abbr_key) by (intros E; injection E as ->; apply N; right; now left).
  unfold abbr_same. rewrite <- !path_one. destruct (B [abbr_key]) as [[P _]|H]; [| |exact H].
  - intros P. apply prefix_cons_inv in P as [P _]. congruence.
  - apply prefix_cons_inv in P as [P _]. congruence.
Qed.

Lemma set_dic_same st : set_dic (ps_dic st) st = st. Proof. now destruct st. Qed.

Lemma num_refl z : val_eqb (vint z) (vint z) = true.
Proof. cbn [val_eqb vint]. unfold num_eqb, num_cmp. cbn [sf_of num_num num_den]. rewrite !Z.mul_1_r. now rewrite Z.compare_refl. Qed.

Lemma list_refl l : (forall v, In v l -> val_eqb v v = true) -> val_eqb (VList l) (VList l) = true.
Proof.
  intros H. cbn [val_eqb]. induction l as [|v l IH]; [reflexivity|]. rewrite (H v (or_introl eq_refl)). apply IH.
  intros w I. apply H. now right.
Qed.

Lemma printed_refl wo ro k v v' : k <> TextV -> printed wo ro k v v' -> val_eqb v' v' = true.
Proof.
  intros N P. destruct P as [K z A|K n w A [_ E]|K l A|K l m A F|K t n A]; [| | | |destruct K; try discriminate; congruence].
  - apply num_refl.
  - exact E.
  - apply list_refl. intros v I. apply in_map_iff in I as (z & <- & _). apply num_refl.
  - apply list_refl. intros v I. apply in_map_iff in I as (n & <- & I).
    clear -F I. induction F as [|a b l m R F IH]; [destruct I|]. destruct I as [<-|I]; [apply R|now apply IH].
Qed.

Lemma eqb_size a b : val_eqb a b = true -> same_size a b = true.
Proof.
  destruct a, b; try discriminate; intros H; try reflexivity.
  - cbn [val_eqb] in H. apply str_eqb_eq in H. subst. unfold same_size. cbn [val_len]. apply Nat.eqb_refl.
  - unfold same_size. cbn [val_len]. revert l0 H. induction l as [|x l IH]; intros [|y m] H; try discriminate; [reflexivity|].
    cbn [val_eqb] in H. apply andb_true_iff in H as [_ H]. cbn [length Nat.eqb]. now apply IH.
Qed.
Lemma check_same o e a b : o_fuzzy o = false -> val_eqb a b = true -> check_value o e a b = Ok tt.
Proof. intros F E. unfold check_value. rewrite (eqb_size _ _ E), F, E. reflexivity. Qed.

(** ** Expressions in two scopes *)

Ltac dlin H c k u :=
  match type of H with
  | bind ?m _ = Ok _ => let E := fresh "E" in destruct m as [[[c k] u]|] eqn:E; cbn [bind] in H; [|discriminate H]
  end.

Fixpoint vars_of (e : expr) : list extvar :=
  match e with
  | EVar x ix | EIncons x ix => [(x, ix)]
  | ENum _ _ => []
  | ENeg a => vars_of a
  | EAdd a b | ESub a b | EMul a b | EDiv a b | EMod a b => vars_of a ++ vars_of b
  end.

Lemma eval_agree n sc1 sc2 lu cast acc e :
  (forall x ix, In (x, ix) (vars_of e) ->
     get_raw sc1 lu x ix = get_raw sc2 lu x ix /\ forall a, get_raw sc1 lu x ix <> Ok (VExpr a)) ->
  eval_expr n sc1 lu cast acc e = eval_expr n sc2 lu cast acc e.
Proof.
  intros H.
  assert (V : forall x ix, get_raw sc1 lu x ix = get_raw sc2 lu x ix -> (forall a, get_raw sc1 lu x ix <> Ok (VExpr a)) ->
            eval_var n sc1 lu cast acc x ix = eval_var n sc2 lu cast acc x ix).
  { intros x ix E N. unfold eval_var. rewrite <- E. destruct (get_raw sc1 lu x ix) as [v|]; [|reflexivity].
    cbn [bind]. destruct v; try reflexivity. destruct (N e0); reflexivity. }
  induction e as [x ix|x ix|de v|a IH|a IHa b IHb|a IHa b IHb|a IHa b IHb|a IHa b IHb|a IHa b IHb];
    rewrite (eval_expr_eq n sc1), (eval_expr_eq n sc2); cbv zeta;
    try (destruct (H x ix) as [A B]; [now left|]; now apply V); try reflexivity.
  { rewrite IH by exact H. reflexivity. }
  all: rewrite IHa, IHb; [reflexivity| |]; intros x ix I; apply H; cbn [vars_of]; apply in_or_app; auto.
Qed.

Section Fields.
  Variable wo : wopts.
  Variable ro : ropts.
  Variable blank : bool.
  Variable depth : nat.
  Variable G : schema.
  Hypothesis GG : good_schema G.
  Variable D : dict.
  Hypothesis CD : conforms wo ro G D.

  (** zeros are printed and read as zeros *)
  Definition zeros_ok : Prop := forall n, zero_lit n = true -> exists w, reads_as wo ro n w /\ num_eqb w n = true.
  Hypothesis ZO : zeros_ok.

  Let ER := read_env ro wo depth.

  Definition intexp (s L : list str) (T : list extvar) (e : expr) : Prop :=
    known G s L T e = true \/ exists t, linear G s L T e = Some t.

  Lemma factor_known s L T e : factor G s L T e = true -> known G s L T e = true.
  Proof.
    intros F. apply orb_prop in F as [F|F]; [|now apply andb_true_iff in F].
    destruct e; try discriminate. destruct v; try discriminate. reflexivity.
  Qed.

  Lemma intexp_neg s L T a : intexp s L T (ENeg a) -> intexp s L T a.
  Proof. intros H; exact H. Qed.
  Lemma intexp_bin s L T e a b : intexp s L T e ->
    e = EAdd a b \/ e = ESub a b \/ e = EMul a b \/ e = EMod a b -> intexp s L T a /\ intexp s L T b.
  Proof.
    unfold intexp. intros H [-> |[-> |[-> | ->]]]; cbn [known linear] in H; destruct H as [H|[t H]];
      try (apply andb_true_iff in H as [A B]; split; left; assumption); try discriminate.
    - destruct (known G s L T b) eqn:B; [split; [right; eauto|now left]|].
      destruct (known G s L T a) eqn:A; [split; [now left|right; eauto]|discriminate].
    - destruct (known G s L T b) eqn:B; [split; [right; eauto|now left]|].
      destruct (known G s L T a) eqn:A; [split; [now left|right; eauto]|discriminate].
    - destruct (factor G s L T b) eqn:B; [split; [right; eauto|left; now apply factor_known]|].
      destruct (factor G s L T a) eqn:A; [split; [left; now apply factor_known|right; eauto]|discriminate].
  Qed.

  Lemma eval_var_ok n sc lu cast acc x ix v : get_raw sc lu x ix = Ok v -> (forall a, v <> VExpr a) ->
    eval_var n sc lu cast acc x ix = Ok (v, vint 0, None).
  Proof. intros H N. unfold eval_var. rewrite H. cbn [bind]. destruct v; try reflexivity. destruct (N e); reflexivity. Qed.
  Lemma eval_var_missing n sc lu cast x ix er : get_raw sc lu x ix = Err er -> missing true er = true ->
    eval_var n sc lu cast true x ix = Ok (vint 0, vint 1, Some (x, ix)).
  Proof. intros H N. unfold eval_var. rewrite H. cbn [bind]. now rewrite N. Qed.

  Lemma no_dict_num n : ~ is_dict (VNum n). Proof. intros [d E]; discriminate. Qed.
  Lemma array_leaf v : no_array v <-> ~ is_dict v.
  Proof. split; [intros H [d E]; exact (H d E)|intros H d E; apply H; now exists d]. Qed.

  (** a variable in the writer *)
  Lemma w_var_raw s L sw k x ix v n cast t : wst G D s L sw -> field_var G s L k (x, ix) = true ->
    eval_var n (scope_of sw) false cast false x ix = Ok t -> fst (fst t) = v -> ~ is_dict v ->
    shaped k v ->
    t = (v, vint 0, None) /\ get_raw (scope_of sw) false x ix = Ok v /\
    exists idcs, mapM (get_indexvalue (ps_loops sw)) ix = Ok idcs /\
      path_get (at_path sw x idcs) (VDict D) = Some v /\ printable wo ro k v.
  Proof.
    intros W F H E N T. unfold eval_var in H. destruct (get_raw (scope_of sw) false x ix) as [u|er] eqn:R.
    2: { cbn [bind] in H. unfold missing in H. cbn [andb] in H. discriminate. }
    cbn [bind] in H.
    assert (Hu : forall a, u <> VExpr a).
    { intros a ->.
      (* an expression is no element of a conforming dictionary *)
      pose proof W as [S Sh]. pose proof F as F0. apply field_var_iff in F0 as (NL & FI & K & K' & _ & _). cbn [fst snd] in *.
      unfold get_raw in R. cbn [scope_of sc_loops sc_dic] in R. rewrite (loop_none G _ _ _ _ S NL) in R.
      destruct (dget (KStr x) (ps_dic sw)) as [o|] eqn:O; [|discriminate].
      destruct (indices_ok G _ _ _ _ S FI) as [idcs Ei].
      assert (R' : array_get o idcs = Ok (VExpr a)).
      { destruct ix; [cbn in Ei; injection Ei as <-; exact R|]. now rewrite Ei in R. }
      rewrite (so_names _ _ _ _ S) in K'.
      assert (Pq : forall q w, path_get (map KInt q) o = Some w -> ~ is_dict w -> printable wo ro K w).
      { intros q w Hw Nw. destruct (CD (at_path sw x q) w) as (k' & K2 & [X|X]).
        - eapply user_var; [exact GG|apply (so_sec _ _ _ _ S)|exact K'].
        - eapply shape_leaf; [apply Sh| |exact Nw].
          + eapply user_var; [exact GG|apply (so_sec _ _ _ _ S)|exact K'].
          + unfold at_path. rewrite <- local_get by apply (so_open _ _ _ _ S). cbn [path_get]. now rewrite O.
        - destruct (Nw (proj1 X)).
        - unfold at_path in K2. erewrite kind_var in K2 by (eauto; apply (so_sec _ _ _ _ S)). injection K2 as <-. exact X. }
      destruct (array_get_inv _ _ _ R') as [X|(q & i & r & l & w & -> & X & I & Y)].
      - pose proof (Pq _ _ X ltac:(intros [d Z]; discriminate)) as P. inversion P.
      - pose proof (Pq _ _ X ltac:(intros [d Z]; discriminate)) as P.
        assert (exists m, w = VNum m) as [m ->].
        { inversion P; subst; apply in_map_iff in I as (z & <- & _); eexists; reflexivity. }
        destruct r; discriminate. }
    assert (H' : Ok (u, vint 0, @None extvar) = Ok t) by (destruct u; try exact H; destruct (Hu e); reflexivity).
    injection H' as <-. cbn [fst] in E. subst v. split; [reflexivity|]. split; [reflexivity|].
    eapply w_get_inv; eauto.
  Qed.
  Lemma typed_shaped k v : typed k v -> shaped k v.
  Proof. destruct k; cbn [typed shaped]; tauto. Qed.

  (** a loop variable *)
  Lemma loop_value s L st x : shape_ok G s L st -> is_loop L x = true -> exists i, lget x (ps_loops st) = Some i.
  Proof. intros S H. now apply (so_loops _ _ _ _ S). Qed.

  (** integer expressions have integer values *)
  Lemma w_int s L T sw n cast : wst G D s L sw -> forall e c k u, intexp s L T e ->
    eval_expr n (scope_of sw) false cast false e = Ok (c, k, u) -> ~ is_dict c ->
    exists z, c = vint z /\ k = vint 0 /\ u = None.
  Proof.
    intros W. pose proof W as [S _].
    assert (Var : forall x ix c k u,
      (known G s L T (EVar x ix) = true \/ exists t, linear G s L T (EVar x ix) = Some t) ->
      eval_var n (scope_of sw) false cast false x ix = Ok (c, k, u) -> ~ is_dict c -> exists z, c = vint z /\ k = vint 0 /\ u = None).
    { intros x ix c k u I0 H N. cbn [known linear] in I0. destruct (is_loop L x) eqn:EL.
      - destruct (loop_value _ _ _ _ S EL) as [i Hi].
        destruct I0 as [I0|[t I0]]; [|unfold field_var in I0; cbn [fst] in I0; rewrite EL in I0; discriminate].
        apply no_name_iff in I0 as [Ni Gi].
        pose proof (get_loop G _ _ _ false x ix i S Hi (w_absent wo ro G GG D CD _ _ _ _ W Ni Gi)) as R.
        rewrite (eval_var_ok _ _ _ _ _ _ _ _ R ltac:(discriminate)) in H. injection H as <- <- <-. eexists; repeat split.
      - assert (field_var G s L IntV (x, ix) = true) as F.
        { destruct I0 as [I0|[t I0]]; [apply andb_true_iff in I0; tauto|]. destruct (field_var G s L IntV (x, ix)); [reflexivity|discriminate]. }
        destruct (w_var_raw _ _ _ _ _ _ c _ _ _ W F H eq_refl N) as (E & _ & idcs & _ & _ & P).
        { exact I. }
        injection E as -> ->. destruct (printable_ofint _ _ _ P) as (z & -> & _). eauto. }
    induction e as [x ix|x ix|de v|a IH|a IHa b IHb|a IHa b IHb|a IHa b IHb|a IHa b IHb|a IHa b IHb];
      intros c k u I H N; rewrite eval_expr_eq in H; cbv zeta in H.
    - now apply (Var x ix).
    - now apply (Var x ix).
    - destruct I as [I|[t I]]; [|discriminate]. cbn [known] in I. destruct v; try discriminate I. injection H as <- <- <-. eexists; repeat split.
    - dlin H c1 k1 u1. dbind H. dbind H. injection H as <- <- <-.
      destruct (IH c1 k1 u1 (intexp_neg _ _ _ _ I) eq_refl) as (z & -> & -> & ->).
      { apply array_leaf. exact (proj1 (math_neg_arg _ _ E0)). }
      cbn in E0, E1. injection E0 as <-. injection E1 as <-. eexists. repeat split.
    - destruct (intexp_bin _ _ _ _ a b I ltac:(auto)) as [Ia Ib].
      dlin H c1 k1 u1.
 dlin H c2 k2 u2.
      destruct (negb (coef0 k1) && negb (coef0 k2)); [discriminate|]. dbind H. dbind H. injection H as <- <- <-.
      destruct (math_op_arg _ _ _ _ E1) as (N1 & N2 & _).
      destruct (IHa c1 k1 u1 Ia eq_refl) as (z1 & -> & -> & ->); [now apply array_leaf|].
      destruct (IHb c2 k2 u2 Ib eq_refl) as (z2 & -> & -> & ->); [now apply array_leaf|].
      cbn in E1, E2. injection E1 as <-. injection E2 as <-. eexists. repeat split.
    - destruct (intexp_bin _ _ _ _ a b I ltac:(auto)) as [Ia Ib].
      dlin H c1 k1 u1.
 dlin H c2 k2 u2.
      destruct (negb (coef0 k1) && negb (coef0 k2)); [discriminate|]. dbind H. dbind H. injection H as <- <- <-.
      destruct (math_op_arg _ _ _ _ E1) as (N1 & N2 & _).
      destruct (IHa c1 k1 u1 Ia eq_refl) as (z1 & -> & -> & ->); [now apply array_leaf|].
      destruct (IHb c2 k2 u2 Ib eq_refl) as (z2 & -> & -> & ->); [now apply array_leaf|].
      cbn in E1, E2. injection E1 as <-. injection E2 as <-. eexists. repeat split.
    - destruct (intexp_bin _ _ _ _ a b I ltac:(auto)) as [Ia Ib].
      dlin H c1 k1 u1.
 dlin H c2 k2 u2.
      destruct (negb (coef0 k1) && negb (coef0 k2)); [discriminate|].
      assert (no_array c1 /\ no_array c2) as [N1 N2].
      { destruct (coef0 k1); dbind H; destruct (math_op_arg _ _ _ _ E1) as (N1 & N2 & _); auto. }
      destruct (IHa c1 k1 u1 Ia eq_refl) as (z1 & -> & -> & ->); [now apply array_leaf|].
      destruct (IHb c2 k2 u2 Ib eq_refl) as (z2 & -> & -> & ->); [now apply array_leaf|].
      rewrite coef0_int in H. cbn in H. injection H as <- <- <-. eexists. repeat split. now rewrite Z.mul_0_r.
    - destruct I as [I|[t I]]; discriminate.
    - destruct (intexp_bin _ _ _ _ a b I ltac:(auto)) as [Ia Ib].
      dlin H c1 k1 u1.
 dlin H c2 k2 u2.
      destruct (negb (coef0 k1) || negb (coef0 k2)); [discriminate|]. dbind H. injection H as <- <- <-.
      destruct (math_op_arg _ _ _ _ E1) as (N1 & N2 & _).
      destruct (IHa c1 k1 u1 Ia eq_refl) as (z1 & -> & -> & ->); [now apply array_leaf|].
      destruct (IHb c2 k2 u2 Ib eq_refl) as (z2 & -> & -> & ->); [now apply array_leaf|].
      cbn in E1. destruct (z2 =? 0); [discriminate|]. injection E1 as <-. eexists. repeat split.
  Qed.

  (** ** Known expressions *)

  Fixpoint no_div (e : expr) : bool :=
    match e with
    | EVar _ _ | EIncons _ _ | ENum _ _ => true
    | ENeg a => no_div a
    | EAdd a b | ESub a b | EMul a b | EMod a b => no_div a && no_div b
    | EDiv _ _ => false
    end.
  Lemma known_no_div s L T e : known G s L T e = true -> no_div e = true.
  Proof.
    induction e; intros H; cbn [known no_div] in *; try reflexivity; try discriminate; try now apply IHe.
    all: apply andb_true_iff in H as [A B]; now rewrite IHe1, IHe2.
  Qed.

  Lemma eval_known_vars n sc1 sc2 c1 c2 a1 a2 e : no_div e = true ->
    (forall x ix, In (x, ix) (vars_of e) -> exists i, get_raw sc1 false x ix = Ok (vint i) /\ get_raw sc2 false x ix = Ok (vint i)) ->
    eval_expr n sc1 false c1 a1 e = eval_expr n sc2 false c2 a2 e.
  Proof.
    intros ND H.
    assert (V : forall x ix, In (x, ix) (vars_of e) -> eval_var n sc1 false c1 a1 x ix = eval_var n sc2 false c2 a2 x ix).
    { intros x ix I. destruct (H x ix I) as (i & A & B). now rewrite (eval_var_ok _ _ _ _ _ _ _ _ A), (eval_var_ok _ _ _ _ _ _ _ _ B). }
    clear H. induction e as [x ix|x ix|de v|a IH|a IHa b IHb|a IHa b IHb|a IHa b IHb|a IHa b IHb|a IHa b IHb];
      rewrite (eval_expr_eq n sc1), (eval_expr_eq n sc2); cbv zeta; cbn [vars_of no_div] in *;
      try (apply V; now left); try reflexivity; try discriminate.
    { rewrite IH by assumption. reflexivity. }
    all: apply andb_true_iff in ND as [NA NB];
      rewrite IHa, IHb; [reflexivity| | | |]; try assumption; intros x ix I; apply V, in_or_app; auto.
  Qed.

  Lemma nonzero_lit_eq e : nonzero_lit e = true -> exists de z, e = ENum de (NInt z) /\ z <> 0.
  Proof.
    destruct e; try discriminate. destruct v; try discriminate. cbn [nonzero_lit]. intros H. apply negb_true_iff, Z.eqb_neq in H. eauto.
  Qed.

  Section Pair.
    Variables (s L : list str) (T : list extvar) (sw sr : pstate).
    Hypothesis W : wst G D s L sw.
    Hypothesis R : rst wo ro G D s L sr.
    Hypothesis A : aligned sw sr.
    Hypothesis TK : toks sr T.

    Lemma same_path x idcs : at_path sw x idcs = at_path sr x idcs.
    Proof. unfold at_path. now rewrite (aligned_pre _ _ A). Qed.

    Lemma known_vars e x ix : known G s L T e = true -> In (x, ix) (vars_of e) ->
      exists i, get_raw (scope_of sw) false x ix = Ok (vint i) /\ get_raw (scope_of sr) false x ix = Ok (vint i).
    Proof.
      pose proof W as [Sw _]. pose proof R as [Sr _]. destruct A as [AL _].
      assert (V : forall y iy, (if is_loop L y then no_name G s y else mem (y, iy) T && field_var G s L IntV (y, iy)) = true ->
        exists i, get_raw (scope_of sw) false y iy = Ok (vint i) /\ get_raw (scope_of sr) false y iy = Ok (vint i)).
      { intros y iy H. destruct (is_loop L y) eqn:EL.
        - apply no_name_iff in H as [Ni Gi]. destruct (loop_value _ _ _ _ Sw EL) as [i Hi]. exists i. split.
          + eapply get_loop; eauto. eapply w_absent; eauto.
          + eapply get_loop; eauto; [now rewrite <- AL|]. eapply r_absent; eauto.
        - apply andb_true_iff in H as [M F]. apply mem_In in M. apply field_var_iff in F as (_ & FI & KK & K & Ad & _). cbn [fst snd] in *.
          destruct (tok_values wo ro G GG D _ _ _ _ _ _ R EL K (TK _ M)) as (idcs & v & v' & E & Hd & P & Hr & _).
          destruct (printed_ofint _ _ _ _ _ Ad P) as (i & -> & ->).
          exists i. split; [|exact Hr]. eapply w_get; [exact W|exact EL|rewrite AL; exact E| | |].
          + eapply user_var; [exact GG|apply (so_sec _ _ _ _ Sw)|rewrite <- (so_names _ _ _ _ Sw); exact K].
          + rewrite same_path. exact Hd.
          + apply no_dict_num. }
      induction e as [y iy|y iy|de v|a IH|a IHa b IHb|a IHa b IHb|a IHa b IHb|a IHa b IHb|a IHa b IHb];
        cbn [known vars_of]; intros H I; try (destruct I as [I|[]]; injection I as <- <-; now apply V); try destruct I; try discriminate.
      { now apply IH. }
      all: apply andb_true_iff in H as [HA HB]; apply in_app_or in I as [I|I]; auto.
    Qed.

    Lemma r_known n c1 c2 a1 a2 e : known G s L T e = true ->
      eval_expr n (scope_of sw) false c1 a1 e = eval_expr n (scope_of sr) false c2 a2 e.
    Proof.
      intros H. apply eval_known_vars; [eapply known_no_div; eauto|]. intros x ix I. eapply known_vars; eauto.
    Qed.

    Lemma coef0_vint z : coef0 (vint z) = (z =? 0).
    Proof. exact (coef0_int z). Qed.

    Lemma ev_add n sc lu cast acc e1 e2 a1 b1 u1 a2 b2 u2 :
      eval_expr n sc lu cast acc e1 = Ok (vint a1, vint b1, u1) -> eval_expr n sc lu cast acc e2 = Ok (vint a2, vint b2, u2) ->
      b1 = 0 \/ b2 = 0 ->
      eval_expr n sc lu cast acc (EAdd e1 e2) = Ok (vint (a1 + a2), vint (b1 + b2), if b1 =? 0 then u2 else u1).
    Proof.
      intros E1 E2 B. rewrite eval_expr_eq. cbv zeta. rewrite E1, E2. cbn [bind]. rewrite !coef0_vint.
      destruct (Z.eqb_spec b1 0), (Z.eqb_spec b2 0); try reflexivity. lia.
    Qed.
    Lemma ev_sub n sc lu cast acc e1 e2 a1 b1 u1 a2 b2 u2 :
      eval_expr n sc lu cast acc e1 = Ok (vint a1, vint b1, u1) -> eval_expr n sc lu cast acc e2 = Ok (vint a2, vint b2, u2) ->
      b1 = 0 \/ b2 = 0 ->
      eval_expr n sc lu cast acc (ESub e1 e2) = Ok (vint (a1 - a2), vint (b1 - b2), if b1 =? 0 then u2 else u1).
    Proof.
      intros E1 E2 B. rewrite eval_expr_eq. cbv zeta. rewrite E1, E2. cbn [bind]. rewrite !coef0_vint.
      destruct (Z.eqb_spec b1 0), (Z.eqb_spec b2 0); try reflexivity. lia.
    Qed.
    Lemma ev_mul n sc lu cast acc e1 e2 a1 b1 u1 a2 b2 u2 :
      eval_expr n sc lu cast acc e1 = Ok (vint a1, vint b1, u1) -> eval_expr n sc lu cast acc e2 = Ok (vint a2, vint b2, u2) ->
      b1 = 0 \/ b2 = 0 ->
      eval_expr n sc lu cast acc (EMul e1 e2) =
        Ok (vint (a1 * a2), vint (if b1 =? 0 then a1 * b2 else b1 * a2), if b1 =? 0 then u2 else u1).
    Proof.
      intros E1 E2 B. rewrite eval_expr_eq. cbv zeta. rewrite E1, E2. cbn [bind]. rewrite !coef0_vint.
      destruct (Z.eqb_spec b1 0), (Z.eqb_spec b2 0); try reflexivity. lia.
    Qed.

    Lemma known_int n cast c k u e : known G s L T e = true ->
      eval_expr n (scope_of sw) false cast false e = Ok (c, k, u) -> ~ is_dict c ->
      exists z, (c, k, u) = (vint z, vint 0, None) /\ forall cast' acc', eval_expr n (scope_of sr) false cast' acc' e = Ok (vint z, vint 0, None).
    Proof.
      intros K H N. destruct (w_int s L T sw n cast W e c k u (or_introl K) H N) as (z & -> & -> & ->).
      exists z. split; [reflexivity|]. intros cast' acc'. now rewrite <- (r_known n cast cast' false acc' e K).
    Qed.

    (** counts *)
    Lemma natural_value n cast : forall e z k u, known G s L T e = true -> natural G s L e = true ->
      eval_expr n (scope_of sw) false cast false e = Ok (vint z, k, u) -> 0 <= z.
    Proof.
      assert (Var : forall x ix z k u, (if is_loop L x then no_name G s x else mem (x, ix) T && field_var G s L IntV (x, ix)) = true ->
        negb (is_loop L x) && match G s x with Some K => count K | None => false end = true ->
        eval_var n (scope_of sw) false cast false x ix = Ok (vint z, k, u) -> 0 <= z).
      { intros x ix z k u K N H. apply andb_true_iff in N as [NL N]. apply negb_true_iff in NL. rewrite NL in K.
        apply andb_true_iff in K as [_ F]. apply field_var_iff in F as (_ & FI & _). cbn [fst snd] in FI.
        destruct (G s x) as [K|] eqn:Gx; [|discriminate].
        assert (F : field_var G s L K (x, ix) = true).
        { unfold field_var, may_hold. cbn [fst snd]. rewrite NL, FI, Gx, kind_eqb_refl. reflexivity. }
        destruct (w_var_raw _ _ _ _ _ _ (vint z) _ _ _ W F H eq_refl (no_dict_num _)) as (_ & _ & idcs & E & Hd & P); [destruct K; try discriminate; exact I|].
        inversion P; subst; auto; destruct K; discriminate. }
      induction e as [x ix|x ix|de v|a IH|a IHa b IHb|a IHa b IHb|a IHa b IHb|a IHa b IHb|a IHa b IHb];
        intros z k u K N H; cbn [known] in K; cbn [natural] in N; try discriminate.
      - rewrite eval_expr_eq in H. eapply Var; eauto.
      - rewrite eval_expr_eq in H. eapply Var; eauto.
      - destruct v as [v| |]; try discriminate. rewrite eval_expr_eq in H. injection H as -> _ _. now apply Z.leb_le in N.
      - apply andb_true_iff in K as [Ka Kb]. apply andb_true_iff in N as [Na Nb].
        rewrite eval_expr_eq in H; cbv zeta in H. dlin H c1 k1 u1. dlin H c2 k2 u2.
        destruct (negb (coef0 k1) && negb (coef0 k2)); [discriminate|]. dbind H. dbind H. injection H as -> _ _.
        destruct (math_op_arg _ _ _ _ E1) as (N1 & N2 & _). apply array_leaf in N1, N2.
        destruct (known_int _ _ _ _ _ _ Ka E N1) as (z1 & Q & _). injection Q as -> -> ->.
        destruct (known_int _ _ _ _ _ _ Kb E0 N2) as (z2 & Q & _). injection Q as -> -> ->. cbn in E1. injection E1 as <-.
        specialize (IHa _ _ _ Ka Na eq_refl). specialize (IHb _ _ _ Kb Nb eq_refl). lia.
      - apply andb_true_iff in K as [Ka Kb]. apply andb_true_iff in N as [Na Nb].
        rewrite eval_expr_eq in H; cbv zeta in H. dlin H c1 k1 u1. dlin H c2 k2 u2.
        destruct (negb (coef0 k1) && negb (coef0 k2)); [discriminate|].
        assert (no_array c1 /\ no_array c2) as [N1 N2].
        { destruct (coef0 k1); dbind H; destruct (math_op_arg _ _ _ _ E1) as (N1 & N2 & _); auto. }
        apply array_leaf in N1, N2.
        destruct (known_int _ _ _ _ _ _ Ka E N1) as (z1 & Q & _). injection Q as -> -> ->.
        destruct (known_int _ _ _ _ _ _ Kb E0 N2) as (z2 & Q & _). injection Q as -> -> ->. cbn in H. injection H as <- _ _.
        specialize (IHa _ _ _ Ka Na eq_refl). specialize (IHb _ _ _ Kb Nb eq_refl). nia.
    Qed.
    Lemma positive_value n cast : forall e z k u, known G s L T e = true -> above_zero G s L e = true ->
      eval_expr n (scope_of sw) false cast false e = Ok (vint z, k, u) -> 0 < z.
    Proof.
      induction e as [x ix|x ix|de v|a IH|a IHa b IHb|a IHa b IHb|a IHa b IHb|a IHa b IHb|a IHa b IHb];
        intros z k u K N H; cbn [known] in K; cbn [above_zero] in N; try discriminate.
      - destruct v as [v| |]; try discriminate. rewrite eval_expr_eq in H. injection H as -> _ _. now apply Z.ltb_lt in N.
      - apply andb_true_iff in K as [Ka Kb].
        rewrite eval_expr_eq in H; cbv zeta in H. dlin H c1 k1 u1. dlin H c2 k2 u2.
        destruct (negb (coef0 k1) && negb (coef0 k2)); [discriminate|]. dbind H. dbind H. injection H as -> _ _.
        destruct (math_op_arg _ _ _ _ E1) as (N1 & N2 & _). apply array_leaf in N1, N2.
        destruct (known_int _ _ _ _ _ _ Ka E N1) as (z1 & Q & _). injection Q as -> -> ->.
        destruct (known_int _ _ _ _ _ _ Kb E0 N2) as (z2 & Q & _). injection Q as -> -> ->. cbn in E1. injection E1 as <-.
        apply orb_prop in N as [N|N]; apply andb_true_iff in N as [Na Nb].
        + specialize (IHa _ _ _ Ka Na eq_refl). pose proof (natural_value _ _ _ _ _ _ Kb Nb E0). lia.
        + specialize (IHb _ _ _ Kb Nb eq_refl). pose proof (natural_value _ _ _ _ _ _ Ka Na E). lia.
      - apply andb_true_iff in K as [Ka Kb]. apply andb_true_iff in N as [Na Nb].
        rewrite eval_expr_eq in H; cbv zeta in H. dlin H c1 k1 u1. dlin H c2 k2 u2.
        destruct (negb (coef0 k1) && negb (coef0 k2)); [discriminate|].
        assert (no_array c1 /\ no_array c2) as [N1 N2].
        { destruct (coef0 k1); dbind H; destruct (math_op_arg _ _ _ _ E1) as (N1 & N2 & _); auto. }
        apply array_leaf in N1, N2.
        destruct (known_int _ _ _ _ _ _ Ka E N1) as (z1 & Q & _). injection Q as -> -> ->.
        destruct (known_int _ _ _ _ _ _ Kb E0 N2) as (z2 & Q & _). injection Q as -> -> ->. cbn in H. injection H as <- _ _.
        specialize (IHa _ _ _ Ka Na eq_refl). specialize (IHb _ _ _ Kb Nb eq_refl). nia.
    Qed.
    Lemma factor_value n cast e c k u : factor G s L T e = true ->
      eval_expr n (scope_of sw) false cast false e = Ok (c, k, u) -> ~ is_dict c ->
      exists z, z <> 0 /\ (c, k, u) = (vint z, vint 0, None) /\
        forall cast' acc', eval_expr n (scope_of sr) false cast' acc' e = Ok (vint z, vint 0, None).
    Proof.
      intros F H N. apply orb_prop in F as [F|F].
      - destruct (nonzero_lit_eq _ F) as (de & z & -> & Nz). rewrite eval_expr_eq in H. injection H as <- <- <-.
        exists z. split; [exact Nz|]. split; [reflexivity|]. intros. now rewrite eval_expr_eq.
      - apply andb_true_iff in F as [K P]. destruct (known_int _ _ _ _ _ _ K H N) as (z & Q & Kr). exists z.
        split; [|split; assumption]. injection Q as -> -> ->. pose proof (positive_value _ _ _ _ _ _ K P H). lia.
    Qed.

    (** a linear expression *)
    Lemma r_linear n cast : forall e t z k u, linear G s L T e = Some t ->
      eval_expr n (scope_of sw) false cast false e = Ok (vint z, k, u) ->
      field_var G s L IntV t = true /\
      exists idcs x0 a b, mapM (get_indexvalue (ps_loops sw)) (snd t) = Ok idcs /\
        path_get (at_path sw (fst t) idcs) (VDict D) = Some (vint x0) /\ Z.abs x0 <= 2 ^ 53 /\
        b <> 0 /\ z = a + b * x0 /\
        forall cast',
          (get_raw (scope_of sr) false (fst t) (snd t) = Ok (vint x0) ->
             eval_expr n (scope_of sr) false cast' true e = Ok (vint z, vint 0, None)) /\
          (forall er, get_raw (scope_of sr) false (fst t) (snd t) = Err er -> missing true er = true ->
             eval_expr n (scope_of sr) false cast' true e = Ok (vint a, vint b, Some t)).
    Proof.
      assert (Var : forall x ix t z k u, (if field_var G s L IntV (x, ix) then Some (x, ix) else None) = Some t ->
        eval_var n (scope_of sw) false cast false x ix = Ok (vint z, k, u) ->
        field_var G s L IntV t = true /\
        exists idcs x0 a b, mapM (get_indexvalue (ps_loops sw)) (snd t) = Ok idcs /\
          path_get (at_path sw (fst t) idcs) (VDict D) = Some (vint x0) /\ Z.abs x0 <= 2 ^ 53 /\
          b <> 0 /\ z = a + b * x0 /\
          forall cast',
            (get_raw (scope_of sr) false (fst t) (snd t) = Ok (vint x0) ->
               eval_var n (scope_of sr) false cast' true x ix = Ok (vint z, vint 0, None)) /\
            (forall er, get_raw (scope_of sr) false (fst t) (snd t) = Err er -> missing true er = true ->
               eval_var n (scope_of sr) false cast' true x ix = Ok (vint a, vint b, Some t))).
      { intros x ix t z k u Ht H. destruct (field_var G s L IntV (x, ix)) eqn:F; [|discriminate]. injection Ht as <-.
        split; [exact F|]. cbn [fst snd].
        destruct (w_var_raw _ _ _ _ _ _ (vint z) _ _ _ W F H eq_refl (no_dict_num _)) as (_ & _ & idcs & E & Hd & P).
        { exact I. }
        destruct (printable_ofint _ _ _ P) as (z' & Ez & Hz). injection Ez as <-. exists idcs, z, 0, 1.
        split; [exact E|]. split; [exact Hd|]. split; [assumption|]. split; [lia|]. split; [lia|]. intros cast'. split.
        - intros Hr. apply eval_var_ok; [exact Hr|discriminate].
        - intros er Hr M. eapply eval_var_missing; eauto. }
      induction e as [x ix|x ix|de v|a IH|a IHa b IHb|a IHa b IHb|a IHa b IHb|a IHa b IHb|a IHa b IHb];
        intros t z k u Ht H; cbn [linear] in Ht; try discriminate.
      - rewrite eval_expr_eq in H. destruct (Var _ _ _ _ _ _ Ht H) as (F & idcs & x0 & a & b & H1 & H2 & H3 & H4 & H5 & H6).
        split; [exact F|]. exists idcs, x0, a, b. repeat (split; [assumption|]). intros cast'. rewrite eval_expr_eq. apply H6.
      - rewrite eval_expr_eq in H. destruct (Var _ _ _ _ _ _ Ht H) as (F & idcs & x0 & a & b & H1 & H2 & H3 & H4 & H5 & H6).
        split; [exact F|]. exists idcs, x0, a, b. repeat (split; [assumption|]). intros cast'. rewrite eval_expr_eq. apply H6.
      - rewrite eval_expr_eq in H; cbv zeta in H. dlin H c1 k1 u1. dbind H. dbind H. injection H as -> <- <-.
        destruct (w_int _ _ T _ _ _ W a c1 k1 u1 ltac:(right; eauto) E) as (z1 & -> & -> & ->).
        { apply array_leaf. exact (proj1 (math_neg_arg _ _ E0)). }
        cbn in E0. injection E0 as <-.
        destruct (IH t z1 _ _ Ht eq_refl) as (F & idcs & x0 & a' & b' & H1 & H2 & H3 & H4 & H5 & H6).
        split; [exact F|]. exists idcs, x0, (- a'), (- b'). repeat (split; [first [assumption|lia]|]). intros cast'.
        destruct (H6 cast') as [Q1 Q2]. split.
        + intros Hr. rewrite eval_expr_eq. cbv zeta. rewrite (Q1 Hr). reflexivity.
        + intros er Hr M. rewrite eval_expr_eq. cbv zeta. rewrite (Q2 er Hr M). reflexivity.
      - rewrite eval_expr_eq in H; cbv zeta in H. dlin H c1 k1 u1. dlin H c2 k2 u2.
        destruct (negb (coef0 k1) && negb (coef0 k2)); [discriminate|]. dbind H. dbind H. injection H as -> <- <-.
        destruct (math_op_arg _ _ _ _ E1) as (N1 & N2 & _). apply array_leaf in N1, N2.
        destruct (known G s L T b) eqn:Kb; [|destruct (known G s L T a) eqn:Ka; [|discriminate]].
        + destruct (w_int _ _ T _ _ _ W a c1 k1 u1 ltac:(right; eauto) E N1) as (z1 & -> & -> & ->).
          destruct (known_int _ _ _ _ _ _ Kb E0 N2) as (z2 & Q & Kr). injection Q as -> -> ->. cbn in E1. injection E1 as <-.
          destruct (IHa t z1 _ _ Ht eq_refl) as (F & idcs & x0 & a' & b' & H1 & H2 & H3 & H4 & H5 & H6).
          split; [exact F|]. exists idcs, x0, (a' + z2), (b' + 0). repeat (split; [first [assumption|lia]|]). intros cast'.
          destruct (H6 cast') as [Q1 Q2]. split.
          * intros Hr. rewrite (ev_add _ _ _ _ _ _ _ _ _ _ _ _ _ (Q1 Hr) (Kr _ _) ltac:(auto)). reflexivity.
          * intros er Hr M. rewrite (ev_add _ _ _ _ _ _ _ _ _ _ _ _ _ (Q2 er Hr M) (Kr _ _) ltac:(auto)).
            now rewrite (proj2 (Z.eqb_neq _ _) H4).
        + destruct (w_int _ _ T _ _ _ W b c2 k2 u2 ltac:(right; eauto) E0 N2) as (z1 & -> & -> & ->).
          destruct (known_int _ _ _ _ _ _ Ka E N1) as (z2 & Q & Kr). injection Q as -> -> ->. cbn in E1. injection E1 as <-.
          destruct (IHb t z1 _ _ Ht eq_refl) as (F & idcs & x0 & a' & b' & H1 & H2 & H3 & H4 & H5 & H6).
          split; [exact F|]. exists idcs, x0, (z2 + a'), (0 + b'). repeat (split; [first [assumption|lia]|]). intros cast'.
          destruct (H6 cast') as [Q1 Q2]. split.
          * intros Hr. rewrite (ev_add _ _ _ _ _ _ _ _ _ _ _ _ _ (Kr _ _) (Q1 Hr) ltac:(auto)). reflexivity.
          * intros er Hr M. rewrite (ev_add _ _ _ _ _ _ _ _ _ _ _ _ _ (Kr _ _) (Q2 er Hr M) ltac:(auto)). reflexivity.
      - rewrite eval_expr_eq in H; cbv zeta in H. dlin H c1 k1 u1. dlin H c2 k2 u2.
        destruct (negb (coef0 k1) && negb (coef0 k2)); [discriminate|]. dbind H. dbind H. injection H as -> <- <-.
        destruct (math_op_arg _ _ _ _ E1) as (N1 & N2 & _). apply array_leaf in N1, N2.
        destruct (known G s L T b) eqn:Kb; [|destruct (known G s L T a) eqn:Ka; [|discriminate]].
        + destruct (w_int _ _ T _ _ _ W a c1 k1 u1 ltac:(right; eauto) E N1) as (z1 & -> & -> & ->).
          destruct (known_int _ _ _ _ _ _ Kb E0 N2) as (z2 & Q & Kr). injection Q as -> -> ->. cbn in E1. injection E1 as <-.
          destruct (IHa t z1 _ _ Ht eq_refl) as (F & idcs & x0 & a' & b' & H1 & H2 & H3 & H4 & H5 & H6).
          split; [exact F|]. exists idcs, x0, (a' - z2), (b' - 0). repeat (split; [first [assumption|lia]|]). intros cast'.
          destruct (H6 cast') as [Q1 Q2]. split.
          * intros Hr. rewrite (ev_sub _ _ _ _ _ _ _ _ _ _ _ _ _ (Q1 Hr) (Kr _ _) ltac:(auto)). reflexivity.
          * intros er Hr M. rewrite (ev_sub _ _ _ _ _ _ _ _ _ _ _ _ _ (Q2 er Hr M) (Kr _ _) ltac:(auto)).
            now rewrite (proj2 (Z.eqb_neq _ _) H4).
        + destruct (w_int _ _ T _ _ _ W b c2 k2 u2 ltac:(right; eauto) E0 N2) as (z1 & -> & -> & ->).
          destruct (known_int _ _ _ _ _ _ Ka E N1) as (z2 & Q & Kr). injection Q as -> -> ->. cbn in E1. injection E1 as <-.
          destruct (IHb t z1 _ _ Ht eq_refl) as (F & idcs & x0 & a' & b' & H1 & H2 & H3 & H4 & H5 & H6).
          split; [exact F|]. exists idcs, x0, (z2 - a'), (0 - b'). repeat (split; [first [assumption|lia]|]). intros cast'.
          destruct (H6 cast') as [Q1 Q2]. split.
          * intros Hr. rewrite (ev_sub _ _ _ _ _ _ _ _ _ _ _ _ _ (Kr _ _) (Q1 Hr) ltac:(auto)). reflexivity.
          * intros er Hr M. rewrite (ev_sub _ _ _ _ _ _ _ _ _ _ _ _ _ (Kr _ _) (Q2 er Hr M) ltac:(auto)). reflexivity.
      - rewrite eval_expr_eq in H; cbv zeta in H. dlin H c1 k1 u1. dlin H c2 k2 u2.
        destruct (negb (coef0 k1) && negb (coef0 k2)); [discriminate|].
        assert (no_array c1 /\ no_array c2) as [N1 N2].
        { destruct (coef0 k1); dbind H; destruct (math_op_arg _ _ _ _ E1) as (N1 & N2 & _); auto. }
        apply array_leaf in N1, N2.
        destruct (factor G s L T b) eqn:Kb; [|destruct (factor G s L T a) eqn:Ka; [|discriminate]].
        + destruct (w_int _ _ T _ _ _ W a c1 k1 u1 ltac:(right; eauto) E N1) as (z1 & -> & -> & ->).
          destruct (factor_value _ _ _ _ _ _ Kb E0 N2) as (z2 & Nz & Q & Kr). injection Q as -> -> ->.
          rewrite coef0_vint in H. cbn in H. injection H as <- _ _.
          destruct (IHa t z1 _ _ Ht eq_refl) as (F & idcs & x0 & a' & b' & H1 & H2 & H3 & H4 & H5 & H6).
          split; [exact F|]. exists idcs, x0, (a' * z2), (b' * z2). repeat (split; [first [assumption|lia|nia]|]). intros cast'.
          destruct (H6 cast') as [Q1 Q2].
          split.
          * intros Hr. rewrite (ev_mul _ _ _ _ _ _ _ _ _ _ _ _ _ (Q1 Hr) (Kr _ _) ltac:(auto)). cbn [Z.eqb]. now rewrite Z.mul_0_r.
          * intros er Hr M. rewrite (ev_mul _ _ _ _ _ _ _ _ _ _ _ _ _ (Q2 er Hr M) (Kr _ _) ltac:(auto)).
            now rewrite (proj2 (Z.eqb_neq _ _) H4).
        + destruct (w_int _ _ T _ _ _ W b c2 k2 u2 ltac:(right; eauto) E0 N2) as (z1 & -> & -> & ->).
          destruct (factor_value _ _ _ _ _ _ Ka E N1) as (z2 & Nz & Q & Kr). injection Q as -> -> ->.
          rewrite coef0_vint in H. cbn in H. injection H as <- _ _.
          destruct (IHb t z1 _ _ Ht eq_refl) as (F & idcs & x0 & a' & b' & H1 & H2 & H3 & H4 & H5 & H6).
          split; [exact F|]. exists idcs, x0, (z2 * a'), (z2 * b'). repeat (split; [first [assumption|lia|nia]|]). intros cast'.
          destruct (H6 cast') as [Q1 Q2].
          split.
          * intros Hr. rewrite (ev_mul _ _ _ _ _ _ _ _ _ _ _ _ _ (Kr _ _) (Q1 Hr) ltac:(auto)). cbn [Z.eqb]. now rewrite Z.mul_0_r.
          * intros er Hr M. rewrite (ev_mul _ _ _ _ _ _ _ _ _ _ _ _ _ (Kr _ _) (Q2 er Hr M) ltac:(auto)). reflexivity.
    Qed.

    Lemma aligned_dic d' : aligned sw (set_dic d' sr).
    Proof. exact A. Qed.

    (** a variable in a field *)
    Lemma var_read k x ix e v v' : field_var G s L k (x, ix) = true -> k <> TextV -> k <> SecV ->
      e = EVar x ix \/ e = EIncons x ix ->
      eval_known depth (scope_of sw) false false e = Ok v -> typed k v -> printed wo ro k v v' ->
      exists d', map_field ER v' e sr = (Ok false, set_dic d' sr) /\ rst wo ro G D s L (set_dic d' sr) /\
        grows sr (set_dic d' sr) /\ tok_at (set_dic d' sr) (pre (ps_up sr)) (x, ix) /\ abbr_same (ps_dic sr) d'.
    Proof.
      intros F Nt Ns Ee Ev Ty Pr. pose proof W as [Sw _]. pose proof R as [Sr (_ & Oa & Of)]. destruct (printed_leaf _ _ _ _ _ Pr) as [Nv Nv'].
      unfold eval_known in Ev. assert (Ev' : exists t, eval_var depth (scope_of sw) false false false x ix = Ok t /\ fst (fst t) = v).
      { destruct Ee as [-> | ->]; rewrite eval_expr_eq in Ev; dlin Ev c0 k0 u0; injection Ev as <-; eexists; split; eauto. }
      destruct Ev' as (t & Et & Ft).
      destruct (w_var_raw _ _ _ _ _ _ v _ _ _ W F Et Ft Nv) as (_ & _ & idcs & Ei & Hd & _).
      { now apply typed_shaped. }
      destruct A as [AL _]. rewrite AL in Ei. rewrite same_path in Hd.
      apply field_var_iff in F as (NL & _ & KK & K & Ad & _). cbn [fst snd] in *.
      destruct (r_get wo ro G GG D _ _ _ _ _ _ _ _ R NL K Ei Hd Nv) as [Fr [(w & Hg & Hl & Pw)|(er & Hg & M & Hl)]].
      - assert (w = v') as -> by (eapply printed_fun; [exact Nt|eapply printed_at; [exact Ad|exact Pw|now apply typed_shaped]|exact Pr]).
        exists (ps_dic sr). rewrite set_dic_same. split; [|split; [exact R|split; [apply grows_refl|split; [|apply abbr_refl]]]].
        + unfold map_field. cbn [ER read_env e_depth]. rewrite Oa. cbn [negb].
          assert (E : eval_expr depth (scope_of sr) false true true e = Ok (v', vint 0, None)).
          { assert (eval_var depth (scope_of sr) false true true x ix = Ok (v', vint 0, None)).
            { apply eval_var_ok; [exact Hg|]. intros a ->. inversion Pr. }
            destruct Ee as [-> | ->]; rewrite eval_expr_eq; assumption. }
          rewrite E. rewrite coef0_vint. cbn [Z.eqb negb]. rewrite check_same; [reflexivity|exact Of|eapply printed_refl; eauto].
        + exists idcs, v'. cbn [fst snd]. repeat split; auto.
          apply (user_var G GG (ps_up sr) x idcs) with (k := KK); [apply (so_sec _ _ _ _ Sr)|rewrite <- (so_names _ _ _ _ Sr); exact K].
      - destruct (set_var_stored x ix idcs v' sr Ei Fr) as (d2 & Es & St).
        destruct (store_ok wo ro G D _ _ _ _ _ _ _ _ _ R K Hd (printed_up _ _ _ _ _ _ Ad Pr) St) as (R2 & Gr & Hl2).
        exists d2. split; [|split; [exact R2|split; [exact Gr|split; [|eapply stored_abbr; [exact St|eapply schema_user; eauto]]]]].
        + unfold map_field. cbn [ER read_env e_depth]. rewrite Oa. cbn [negb].
          assert (E : eval_expr depth (scope_of sr) false true true e = Ok (vint 0, vint 1, Some (x, ix))).
          { pose proof (eval_var_missing depth _ _ true _ _ _ Hg M).
            destruct Ee as [-> | ->]; rewrite eval_expr_eq; assumption. }
          rewrite E. unfold solve. cbn [val_eqZ vint]. change (num_eqb (NInt 0) (NInt 0) && num_eqb (NInt 1) (NInt 1)) with true.
          cbv iota. unfold mbind. rewrite Es. reflexivity.
        + exists idcs, v'. cbn [fst snd]. repeat split; auto.
          apply (user_var G GG (ps_up sr) x idcs) with (k := KK); [apply (so_sec _ _ _ _ Sr)|rewrite <- (so_names _ _ _ _ Sr); exact K].
    Qed.

    Lemma slot_read k e T' v v' : slot G s L T k e = Some T' ->
      eval_known depth (scope_of sw) false false e = Ok v -> typed k v -> printed wo ro k v v' ->
      exists d', map_field ER v' e sr = (Ok false, set_dic d' sr) /\ rst wo ro G D s L (set_dic d' sr) /\
        grows sr (set_dic d' sr) /\ toks (set_dic d' sr) T' /\ abbr_same (ps_dic sr) d'.
    Proof.
      intros Sl Ev Ty Pr. pose proof W as [Sw _]. pose proof R as [Sr (_ & Oa & Of)].
      assert (One : forall x ix, k <> TextV -> k <> SecV -> field_var G s L k (x, ix) = true -> e = EVar x ix \/ e = EIncons x ix ->
        exists d', map_field ER v' e sr = (Ok false, set_dic d' sr) /\ rst wo ro G D s L (set_dic d' sr) /\
          grows sr (set_dic d' sr) /\ toks (set_dic d' sr) ((x, ix) :: T) /\ abbr_same (ps_dic sr) d').
      { intros x ix N1 N2 F Ee. destruct (var_read k x ix e v v' F N1 N2 Ee Ev Ty Pr) as (d' & H1 & H2 & H3 & H4 & H5).
        exists d'. split; [exact H1|]. split; [exact H2|]. split; [exact H3|]. split; [|exact H5].
        intros t [<-|I]; [exact H4|]. eapply tok_grows; [exact H3|reflexivity|now apply TK]. }
      assert (Keep : map_field ER v' e sr = (Ok false, sr) -> exists d', map_field ER v' e sr = (Ok false, set_dic d' sr) /\
        rst wo ro G D s L (set_dic d' sr) /\ grows sr (set_dic d' sr) /\ toks (set_dic d' sr) T /\ abbr_same (ps_dic sr) d').
      { intros H. exists (ps_dic sr). rewrite set_dic_same. split; [exact H|]. split; [exact R|]. split; [apply grows_refl|]. split; [exact TK|apply abbr_refl]. }
      destruct k; cbn [slot] in Sl; try discriminate.
      - (* integers *)
        destruct (printed_ofint wo ro IntV v v' eq_refl Pr) as (z & -> & ->). unfold eval_known in Ev. dlin Ev c0 k0 u0. injection Ev as ->.
        destruct (known G s L T e) eqn:Kn.
        + injection Sl as <-. destruct (known_int _ _ _ _ _ _ Kn E (no_dict_num _)) as (z' & Q & Kr). injection Q as <- -> ->.
          apply Keep. unfold map_field. cbn [ER read_env e_depth]. rewrite Kr. rewrite coef0_vint. cbn [Z.eqb negb].
          rewrite check_same; [reflexivity|exact Of|apply num_refl].
        + destruct (linear G s L T e) as [t|] eqn:Li; [|discriminate]. injection Sl as <-.
          destruct (r_linear _ _ _ _ _ _ _ Li E) as (F & idcs & x0 & a & b & Ei & Hd & Hx & Hb & -> & Q).
          destruct t as [x ix]. cbn [fst snd] in *. destruct (field_var_iff _ _ _ _ _ F) as (NL & _ & KK & K & Ad & _). cbn [fst snd] in *.
          destruct A as [AL _]. rewrite AL in Ei. rewrite same_path in Hd.
          destruct (Q true) as [Q1 Q2].
          destruct (r_get wo ro G GG D _ _ _ _ _ _ _ _ R NL K Ei Hd (no_dict_num _)) as [Fr [(w & Hg & Hl & Pw)|(er & Hg & M & Hl)]].
          * assert (w = vint x0) as -> by (destruct (printed_ofint _ _ _ _ _ Ad Pw) as (q0 & Eq1 & ->); now injection Eq1 as <-).
            assert (Hf : map_field ER (vint (a + b * x0)) e sr = (Ok false, sr)).
            { unfold map_field. cbn [ER read_env e_depth]. rewrite Oa. cbn [negb]. rewrite (Q1 Hg). rewrite coef0_vint. cbn [Z.eqb negb].
              rewrite check_same; [reflexivity|exact Of|apply num_refl]. }
            destruct (Keep Hf) as (d' & H1 & H2 & H3 & H4 & H5). exists d'. split; [exact H1|]. split; [exact H2|]. split; [exact H3|]. split; [|exact H5].
            intros t [<-|I]; [|now apply H4]. eapply tok_grows; [exact H3|reflexivity|].
            exists idcs, (vint x0). cbn [fst snd]. repeat split; auto; [|apply no_dict_num].
            apply (user_var G GG (ps_up sr) x idcs) with (k := KK); [apply (so_sec _ _ _ _ Sr)|rewrite <- (so_names _ _ _ _ Sr); exact K].
          * destruct (set_var_stored x ix idcs (vint x0) sr Ei Fr) as (d2 & Es & St).
            destruct (store_ok wo ro G D _ _ _ _ _ _ _ _ _ R K Hd (pr_int _ _ _ _ Ad) St) as (R2 & Gr & Hl2).
            exists d2. split; [|split; [exact R2|split; [exact Gr|split; [|eapply stored_abbr; [exact St|eapply schema_user; eauto]]]]].
            { unfold map_field. cbn [ER read_env e_depth]. rewrite Oa. cbn [negb]. rewrite (Q2 _ Hg M).
              rewrite solve_exact by assumption. unfold mbind. rewrite Es. reflexivity. }
            intros t [<-|I]; [|eapply tok_grows; [exact Gr|reflexivity|now apply TK]].
            exists idcs, (vint x0). cbn [fst snd]. repeat split; auto; [|apply no_dict_num].
            apply (user_var G GG (ps_up sr) x idcs) with (k := KK); [apply (so_sec _ _ _ _ Sr)|rewrite <- (so_names _ _ _ _ Sr); exact K].
      - (* reals *)
        destruct e; try discriminate.
        + destruct (field_var G s L FltV (x, ix)) eqn:F; [|discriminate]. injection Sl as <-. apply One; auto; discriminate.
        + destruct (field_var G s L FltV (x, ix)) eqn:F; [|discriminate]. injection Sl as <-. apply One; auto; discriminate.
        + destruct (zero_lit v0) eqn:Zl; [|discriminate]. injection Sl as <-.
          unfold eval_known in Ev. rewrite eval_expr_eq in Ev. cbn [bind] in Ev. injection Ev as <-.
          destruct (ZO _ Zl) as (w & Rw & Ew). assert (v' = VNum w) as -> by (eapply printed_fun; [|exact Pr|constructor; [reflexivity|exact Rw]]; discriminate).
          apply Keep. unfold map_field. cbn [ER read_env e_depth]. rewrite eval_expr_eq. change (coef0 (vint 0)) with true. cbn [negb].
          rewrite check_same; [reflexivity|exact Of|exact Ew].
      - destruct e; try discriminate. destruct (field_var G s L IntL (x, ix)) eqn:F; [|discriminate]. injection Sl as <-. apply One; auto; discriminate.
      - destruct e; try discriminate. destruct (field_var G s L FltL (x, ix)) eqn:F; [|discriminate]. injection Sl as <-. apply One; auto; discriminate.
    Qed.
  End Pair.

  (** the value written has an image *)
  Lemma slot_image s L T sw k e T' v : wst G D s L sw -> slot G s L T k e = Some T' ->
    eval_known depth (scope_of sw) false false e = Ok v -> typed k v -> exists v', printed wo ro k v v'.
  Proof.
    intros W Sl Ev Ty.
    assert (One : forall x ix, field_var G s L k (x, ix) = true -> e = EVar x ix \/ e = EIncons x ix -> exists v', printed wo ro k v v').
    { intros x ix F Ee. unfold eval_known in Ev. assert (Ev' : exists t, eval_var depth (scope_of sw) false false false x ix = Ok t /\ fst (fst t) = v).
      { destruct Ee as [-> | ->]; rewrite eval_expr_eq in Ev; dlin Ev c0 k0 u0; injection Ev as <-; eexists; split; eauto. }
      destruct Ev' as (t & Et & Ft).
      destruct (w_var_raw _ _ _ _ _ _ v _ _ _ W F Et Ft) as (_ & _ & idcs & Ei & Hd & P).
      { destruct k; cbn [typed] in Ty; try destruct Ty as [y ->]; try contradiction; intros [dd X]; discriminate. }
      { now apply typed_shaped. }
      destruct P as [K z A|K q w A Rq|K l A|K l m A Fl|K q A]; [| | | |destruct K; try discriminate A; destruct Ty];
        eexists; econstructor; eassumption. }
    destruct k; cbn [slot] in Sl; try discriminate.
    - unfold eval_known in Ev. dlin Ev c0 k0 u0. injection Ev as ->. destruct Ty as [n ->].
      assert (I : intexp s L T e).
      { destruct (known G s L T e) eqn:Kn; [now left|]. destruct (linear G s L T e) eqn:Li; [right; eauto|discriminate]. }
      destruct (w_int _ _ _ _ _ _ W _ _ _ _ I E (no_dict_num _)) as (z & Q & _). rewrite Q. eexists. now constructor.
    - destruct e; try discriminate.
      + destruct (field_var G s L FltV (x, ix)) eqn:F; [|discriminate]. eauto.
      + destruct (field_var G s L FltV (x, ix)) eqn:F; [|discriminate]. eauto.
      + destruct (zero_lit v0) eqn:Zl; [|discriminate]. destruct (ZO _ Zl) as (w & Rw & _).
        unfold eval_known in Ev. rewrite eval_expr_eq in Ev. cbn [bind] in Ev. injection Ev as <-. eexists. constructor; [reflexivity|exact Rw].
    - destruct e; try discriminate. destruct (field_var G s L IntL (x, ix)) eqn:F; [|discriminate]. eauto.
    - destruct e; try discriminate. destruct (field_var G s L FltL (x, ix)) eqn:F; [|discriminate]. eauto.
  Qed.

  (** several fields *)
  Lemma fields_read s L sw : wst G D s L sw -> forall l T T' vs vs' sr, slots G s L T l = Some T' ->
    mapM (eval_known depth (scope_of sw) false false) (map snd l) = Ok vs ->
    Forall2 typed (map fst l) vs -> Forall3 (printed wo ro) (map fst l) vs vs' ->
    rst wo ro G D s L sr -> aligned sw sr -> toks sr T ->
    exists d', map_fields ER (combine vs' (map snd l)) sr = (Ok false, set_dic d' sr) /\
      rst wo ro G D s L (set_dic d' sr) /\ grows sr (set_dic d' sr) /\ toks (set_dic d' sr) T' /\ abbr_same (ps_dic sr) d'.
  Proof.
    intros W. induction l as [|[k e] l IH]; intros T T' vs vs' sr Sl Ev Ty Pr R A TK; cbn [map fst snd] in *.
    - injection Sl as <-. injection Ev as <-. inversion Pr; subst. exists (ps_dic sr). rewrite set_dic_same.
      split; [reflexivity|]. split; [exact R|]. split; [apply grows_refl|]. split; [exact TK|apply abbr_refl].
    - cbn [slots] in Sl. destruct (slot G s L T k e) as [T1|] eqn:S1; [|discriminate].
      cbn [mapM] in Ev. dbind Ev. dbind Ev. injection Ev as <-. inversion Ty as [|? ? ? ? Ty1 Ty2]; subst. inversion Pr as [|? ? ? ? ? ? Pr1 Pr2]; subst.
      destruct (slot_read _ _ _ _ _ W R A TK _ _ _ _ _ S1 E Ty1 Pr1) as (d1 & F1 & R1 & G1 & K1 & B1).
      destruct (IH _ _ _ _ (set_dic d1 sr) Sl eq_refl Ty2 Pr2 R1 A K1) as (d2 & F2 & R2 & G2 & K2 & B2).
      exists d2. split; [|split; [exact R2|split; [eapply grows_trans; eauto|split; [exact K2|eapply abbr_trans; eauto]]]].
      cbn [combine map_fields]. unfold mbind. rewrite F1, F2. reflexivity.
  Qed.
  Lemma slots_read s L sw l T T' vs vs' sr : wst G D s L sw -> slots G s L T l = Some T' ->
    mapM (eval_known depth (scope_of sw) false false) (map snd l) = Ok vs ->
    Forall2 typed (map fst l) vs -> Forall3 (printed wo ro) (map fst l) vs vs' ->
    rst wo ro G D s L sr -> aligned sw sr -> toks sr T ->
    exists d', map_read ER (combine vs' (map snd l)) sr = (Ok tt, set_dic d' sr) /\
      rst wo ro G D s L (set_dic d' sr) /\ grows sr (set_dic d' sr) /\ toks (set_dic d' sr) T' /\ abbr_same (ps_dic sr) d'.
  Proof.
    intros W Sl Ev Ty Pr R A TK. destruct (fields_read _ _ _ W _ _ _ _ _ _ Sl Ev Ty Pr R A TK) as (d' & F & Q).
    exists d'. split; [|exact Q]. unfold map_read. cbn [map_tries]. unfold mbind. rewrite F. reflexivity.
  Qed.
  Lemma slots_image s L sw : wst G D s L sw -> forall l T T' vs, slots G s L T l = Some T' ->
    mapM (eval_known depth (scope_of sw) false false) (map snd l) = Ok vs -> Forall2 typed (map fst l) vs ->
    exists vs', Forall3 (printed wo ro) (map fst l) vs vs'.
  Proof.
    intros W. induction l as [|[k e] l IH]; intros T T' vs Sl Ev Ty; cbn [map fst snd] in *.
    - injection Ev as <-. exists []. constructor.
    - cbn [slots] in Sl. destruct (slot G s L T k e) as [T1|] eqn:S1; [|discriminate].
      cbn [mapM] in Ev. dbind Ev. dbind Ev. injection Ev as <-. inversion Ty as [|? ? ? ? Ty1 Ty2]; subst.
      destruct (slot_image _ _ _ _ _ _ _ _ W S1 E Ty1) as (v' & P). destruct (IH _ _ _ Sl eq_refl Ty2) as (vs' & Ps).
      exists (v' :: vs'). now constructor.
  Qed.
End Fields.
