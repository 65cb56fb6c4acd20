(** Values, integer expressions and conditions of the generated C++ functions for writing and of the
    Python interpreter. *)
From Coq Require Import Ascii String ZArith Bool Lia List.
From Verif Require Import PyBase ProofPyBase PyFloat ModelFortran ModelRecords ModelNum ModelRecipe ModelInterp SpecInterp
  ModelCpp ModelCppTab ModelCppArr SpecCpp SpecCppTab SpecCppRead ModelCppGen SpecCppGen ModelCppWrite.
From Verif Require Import ProofInterp ProofInterpSec ProofInterpFrame ProofInterpMap.
From Verif Require Import ProofCppArr ProofCppGenRead ProofCppGenMap ProofCppGenEval ProofCppGenReg.
Import ListNotations.
Open Scope Z_scope.

(** ** Variables hold what the dictionary holds *)

Definition cell_inv (d : dict) (x : str) (c : cell) : Prop :=
  match c with
  | CScal v => forall z, v = vint z -> dget (KStr x) d = Some (vint z)
  | CArr n => exists s els, n = Vec s (s + Z.of_nat (length els) - 1) els /\ els <> [] /\ 0 <= s /\
      forall k z, nth_error els k = Some (Cell (vint z)) ->
        exists a, dget (KStr x) d = Some (VDict a) /\ dget (KInt (s + Z.of_nat k)) a = Some (vint z)
  end.
Definition winv (f : cframe) : Prop := forall x c, vget x (cf_vars f) = Some c -> cell_inv (cf_dict f) x c.

Lemma winv_empty d sh : winv {| cf_vars := []; cf_dict := d; cf_shift := sh |}.
Proof. intros x c H. discriminate H. Qed.
Lemma winv_set x c f : winv f -> cell_inv (cf_dict f) x c -> winv (set_cell x c f).
Proof.
  intros W C y k H. unfold set_cell in *. cbn [cf_vars cf_dict] in *. destruct (str_eqb y x) eqn:E.
  - apply str_eqb_eq in E. subst y. rewrite vget_vset_same in H. injection H as <-. exact C.
  - rewrite vget_vset_other in H by now apply seq_neq. now apply W.
Qed.
Lemma nth_replace {A} (x : A) : forall l k j, nth_error (replace k x l) j = if Nat.eqb j k then (if (k <? length l)%nat then Some x else None) else nth_error l j.
Proof.
  induction l as [|y l IH]; intros k j.
  - cbn [replace length]. destruct j; cbn [nth_error]; destruct (Nat.eqb _ k); auto; destruct k; reflexivity.
  - destruct k as [|k], j as [|j]; cbn [replace nth_error Nat.eqb length]; try reflexivity. rewrite IH. destruct (Nat.eqb j k); [|reflexivity].
    destruct (Nat.ltb_spec k (length l)), (Nat.ltb_spec (S k) (S (length l))); try lia; reflexivity.
Qed.
Lemma assign_inv L f x ix v f' : winv f -> assign L f x ix v = Val f' ->
  (forall q i, ix = [q] -> index_value L q = Val i -> 0 <= i) ->
  (forall z, v = vint z -> dict_value L f x ix = Val (vint z)) -> winv f' /\ cf_dict f' = cf_dict f /\ cf_shift f' = cf_shift f.
Proof.
  intros W A NN V. destruct ix as [|q [|]]; cbn [assign] in A; [| |discriminate].
  - injection A as <-. split; [|split; reflexivity]. apply winv_set; [exact W|]. intros z E. specialize (V z E). cbn [dict_value] in V.
    destruct (dget (KStr x) (cf_dict f)) as [w|]; [|discriminate]. now injection V as ->.
  - destruct (index_value L q) as [i| |] eqn:I; try discriminate. cbn [cbind] in A. specialize (NN q i eq_refl I).
    destruct (nv_assign [i] v _) as [n| |] eqn:N; try discriminate. cbn [cbind] in A. injection A as <-.
    split; [|split; reflexivity]. apply winv_set; [exact W|].
    assert (NEW : forall z, v = vint z -> exists a, dget (KStr x) (cf_dict f) = Some (VDict a) /\ dget (KInt i) a = Some (vint z)).
    { intros z E. specialize (V z E). cbn [dict_value] in V. rewrite I in V. cbn [cbind] in V.
      destruct (dget (KStr x) (cf_dict f)) as [[| | |a| | | |]|]; try discriminate. exists a. split; [reflexivity|].
      destruct (dget (KInt i) a); [|discriminate]. now injection V as ->. }
    assert (FRESH : nv_assign [i] v nv_empty = Val n -> cell_inv (cf_dict f) x (CArr n)).
    { cbn [nv_assign nv_set nv_empty length]. change (-1 =? -1) with true. cbn iota. rewrite Z.add_0_r, Z.eqb_refl. intros H. injection H as <-.
      exists i, [Cell v]. cbn [length]. split; [f_equal; lia|]. split; [discriminate|]. split; [exact NN|].
      intros [|[|k]] z H; try discriminate H. injection H as H. destruct (NEW z H) as (a & D & G). exists a. split; [exact D|]. now rewrite Z.add_0_r. }
    destruct (vget x (cf_vars f)) as [[w|m]|] eqn:VG; auto.
    destruct (W x _ VG) as (s & els & -> & NE & S0 & EL). cbn [nv_assign nv_set] in N.
    assert (LP : 0 < Z.of_nat (length els)) by (destruct els; [contradiction|cbn [length]; lia]).
    destruct (Z.eqb_spec (s + Z.of_nat (length els) - 1) (-1)); [lia|].
    destruct (Z.eqb_spec i (s + Z.of_nat (length els))) as [IE|IE].
    + injection N as <-. exists s, (els ++ [Cell v]). split; [rewrite app_length; cbn [length]; f_equal; lia|].
      split; [destruct els; discriminate|]. split; [exact S0|]. intros k z H. destruct (Nat.lt_ge_cases k (length els)) as [K|K].
      * rewrite nth_error_app1 in H by exact K. now apply EL.
      * rewrite nth_error_app2 in H by exact K. destruct (k - length els)%nat as [|[|]] eqn:KE; try discriminate H. injection H as H.
        replace (s + Z.of_nat k) with i by lia. now apply NEW.
    + destruct (in_size (i - s) (length els)) eqn:IS; [|discriminate]. injection N as <-. unfold in_size in IS.
      apply andb_true_iff in IS as [I1 I2]. apply Z.leb_le in I1. apply Z.ltb_lt in I2.
      exists s, (replace (Z.to_nat (i - s)) (Cell v) els). rewrite replace_length. split; [reflexivity|].
      split; [destruct els; [contradiction|destruct (Z.to_nat (i - s)); discriminate]|]. split; [exact S0|].
      intros k z H. rewrite nth_replace in H. destruct (Nat.eqb_spec k (Z.to_nat (i - s))) as [->|K]; [|now apply EL].
      destruct (Z.to_nat (i - s) <? length els)%nat; [|discriminate]. injection H as H.
      replace (s + Z.of_nat (Z.to_nat (i - s))) with i by lia. now apply NEW.
Qed.
Lemma cell_dict L f x ix z : winv f -> cell_value L f x ix = Val (vint z) -> dict_value L f x ix = Val (vint z).
Proof.
  intros W C. destruct ix as [|q [|]]; cbn [cell_value dict_value] in *; [| |discriminate].
  - destruct (vget x (cf_vars f)) as [[v|n]|] eqn:V; try discriminate. injection C as ->. rewrite (W x _ V z eq_refl). reflexivity.
  - destruct (index_value L q) as [i| |]; try discriminate. cbn [cbind] in *.
    destruct (vget x (cf_vars f)) as [[v|n]|] eqn:V; try discriminate.
    destruct (W x _ V) as (s & els & -> & NE & S0 & EL). unfold nv_get, nv_at in C.
    destruct (nv_contains i (Vec s (s + Z.of_nat (length els) - 1) els)) eqn:CO; [|discriminate]. 
    destruct (in_size (i - s) (length els)) eqn:IS; [|discriminate].
    destruct (nth_error els (Z.to_nat (i - s))) as [e|] eqn:NT; [|discriminate]. cbn [cbind] in C.
    destruct e as [w|]; [|discriminate]. injection C as ->. destruct (EL _ _ NT) as (a & D & G).
    rewrite D. unfold in_size in IS. apply andb_true_iff in IS as [I1 _]. apply Z.leb_le in I1.
    replace (s + Z.of_nat (Z.to_nat (i - s))) with i in G by lia. now rewrite G.
Qed.

(** ** The dictionaries of Python *)

(** [d] is the dictionary of the frame with entries that Python keeps there while it writes *)
Definition wdic (d : dict) (f : cframe) : Prop :=
  clean (VDict (cf_dict f)) /\ exists w, d = cf_dict f ++ w /\ Forall (fun p => working_key (fst p)) w.
Inductive wups : list vars -> list frame -> list cframe -> Prop :=
| wups_nil : wups [] [] []
| wups_cons V Vs f up c cs : wdic (fr_dic f) c -> kget (fr_name f) V = Some KSec -> has (fr_name f) c = true -> winv c -> known (fr_name f) special_names = false -> wups Vs up cs ->
    wups (V :: Vs) (f :: up) (c :: cs).

Lemma dget_app k a b : dget k (a ++ b) = match dget k a with Some v => Some v | None => dget k b end.
Proof. induction a as [|[j v] a IH]; [reflexivity|]. cbn [app dget]. destruct (key_eqb k j); auto. Qed.
Lemma dget_working k w : Forall (fun p : key * val => working_key (fst p)) w -> ~ working_key k -> dget k w = None.
Proof.
  intros F N. induction F as [|[j v] w P F IH]; [reflexivity|]. cbn [dget fst] in *. destruct (key_eqb k j) eqn:E; [|exact IH].
  apply key_eqb_eq in E. subst j. contradiction.
Qed.
Lemma own_name_iff x : own_name x = true <-> working_key (KStr x).
Proof.
  unfold own_name, known, working_key. cbn [existsb]. rewrite !orb_true_iff, !str_eqb_eq. split.
  - intros [->|[->|[->|H]]]; auto; discriminate.
  - intros [H|[H|H]]; injection H as ->; auto.
Qed.
Lemma clean_working d k v : clean (VDict d) -> dget k d = Some v -> ~ working_key k.
Proof. intros C G W. inversion C as [d' H _|v' H]; subst; [rewrite (H k W) in G; discriminate|exact (H d eq_refl)]. Qed.
Lemma clean_sub d k v : clean (VDict d) -> dget k d = Some v -> clean v.
Proof. intros C G. inversion C as [d' _ H|v' H]; subst; [eauto|exfalso; exact (H d eq_refl)]. Qed.
Lemma wdic_get d f k v : wdic d f -> dget k (cf_dict f) = Some v -> dget k d = Some v.
Proof. intros [_ (w & -> & _)] G. now rewrite dget_app, G. Qed.
Lemma wdic_none d f k : wdic d f -> ~ working_key k -> dget k d = dget k (cf_dict f).
Proof. intros [_ (w & -> & F)] N. rewrite dget_app, (dget_working k w F N). now destruct (dget k (cf_dict f)). Qed.

(** the value of a variable in the open section *)
Lemma dict_value_raw lv s f x ix v : wdic (ps_dic s) f -> loops_ok lv (ps_loops s) -> known x lv = false ->
  (exists b, indices_ok lv ix = Some b) -> dict_value (ps_loops s) f x ix = Val v -> get_raw (scope_of s) false x ix = Ok v.
Proof.
  intros W LO KN [b IX] H. unfold get_raw. cbn [scope_of sc_loops sc_dic]. rewrite (lget_known x lv _ LO KN).
  apply indices_inv in IX as [[-> ->]|(q & -> & -> & Q)]; cbn [dict_value] in H.
  - destruct (dget (KStr x) (cf_dict f)) as [w|] eqn:D; [|discriminate]. injection H as ->. now rewrite (wdic_get _ _ _ _ W D).
  - destruct (index_value (ps_loops s) q) as [i| |] eqn:I; try discriminate. cbn [cbind] in H.
    destruct (dget (KStr x) (cf_dict f)) as [[| | |a| | | |]|] eqn:D; try discriminate. rewrite (wdic_get _ _ _ _ W D).
    destruct (index_both lv _ q i LO Q I) as [G _]. cbn [mapM]. rewrite G. cbn [bind array_get].
    destruct (dget (KInt i) a); [|discriminate]. now injection H as ->.
Qed.

(** ** Names looked up in the enclosing sections *)

Lemma wfind x k : forall Vs up cs, wups Vs up cs -> forall n V d c0 c v, dget (KStr x) d = dget (KStr x) (cf_dict c0) ->
  ~ working_key (KStr x) -> resolve x (V :: Vs) = Some (n, k) -> k <> KSec -> nth_error (c0 :: cs) n = Some c ->
  existsb (has x) (firstn n (c0 :: cs)) = false -> dget (KStr x) (cf_dict c) = Some v -> find_up x d up = Some v.
Proof.
  intros Vs up cs U. induction U as [|V1 Vs f up c1 cs WD KS HS WI NS U IH]; intros n V d c0 c v E NW R NK NC HX G; rewrite find_up_eq, E.
  - cbn [resolve] in R. destruct (kget x V); [|discriminate]. injection R as <- <-. cbn [nth_error] in NC. injection NC as ->. now rewrite G.
  - destruct n as [|n]; cbn [nth_error firstn existsb] in NC, HX.
    + injection NC as ->. now rewrite G.
    + apply orb_false_iff in HX as [H0 HX]. unfold has in H0. destruct (dget (KStr x) (cf_dict c0)); [discriminate|].
      cbn [resolve] in R. destruct (kget x V); [discriminate|]. 
      assert (NF : x <> fr_name f).
      { intros ->. rewrite KS in R. injection R as _ <-. congruence. }
      apply (IH n V1 (outer f d) c1 c v); auto.
      * rewrite outer_other by congruence. now apply wdic_none.
      * cbn [resolve]. destruct (kget x V1) as [j|]; [injection R as <- <-; reflexivity|]. destruct (resolve x Vs) as [[m j]|]; [|discriminate].
        injection R as <- <-. reflexivity.
Qed.
Lemma wfind_none x : forall Vs up cs, wups Vs up cs -> ~ working_key (KStr x) -> existsb (has x) cs = false ->
  forall d, dget (KStr x) d = None -> find_up x d up = None.
Proof.
  intros Vs up cs U NW. induction U as [|V1 Vs f up c1 cs WD KS HS WI NS U IH]; intros HX d D; rewrite find_up_eq, D; [reflexivity|].
  cbn [existsb] in HX. apply orb_false_iff in HX as [H0 HX]. apply IH; [exact HX|].
  rewrite outer_other by (intros E; injection E as ->; congruence). rewrite (wdic_none _ _ _ WD NW).
  unfold has in H0. now destruct (dget (KStr x) (cf_dict c1)).
Qed.

Definition told (n : wnote) : Prop := match n with Hidden _ | Unwritten _ => False | _ => True end.

Section Levels.
  Variables (up : list vars) (lv : list str) (cur : vars) (s : pstate) (st : cstate).
  Hypothesis RC : wdic (ps_dic s) (k_cur st).
  Hypothesis RI : winv (k_cur st).
  Hypothesis RU : wups up (ps_up s) (k_up st).
  Hypothesis LL : k_loops st = ps_loops s.
  Hypothesis LO : loops_ok lv (ps_loops s).

  Lemma frame_inv n f : frame_at n st = Some f -> winv f /\ clean (VDict (cf_dict f)).
  Proof.
    unfold frame_at. destruct n as [|n]; cbn [nth_error]; intros H; [injection H as <-; split; [exact RI|apply RC]|].
    clear - RU H. revert n H. induction RU as [|V1 Vs f0 up0 c1 cs WD KS HS WI NS U IH]; intros n H; [destruct n; discriminate|].
    destruct n; cbn [nth_error] in H; [injection H as <-; split; [exact WI|apply WD]|eauto].
  Qed.

  Lemma dict_value_looked n k f x ix b v : known x lv = false -> indices_ok lv ix = Some b -> resolve x (cur :: up) = Some (n, k) -> k <> KSec ->
    frame_at n st = Some f -> existsb (has x) (firstn n (k_cur st :: k_up st)) = false -> dict_value (ps_loops s) f x ix = Val v ->
    get_raw (scope_of s) true x ix = Ok v.
  Proof.
    intros KN IX R NK FA HX DV. unfold get_raw. cbn [scope_of sc_loops sc_dic sc_up]. rewrite (lget_known x lv _ LO KN).
    assert (FU : forall w, dget (KStr x) (cf_dict f) = Some w -> find_up x (ps_dic s) (ps_up s) = Some w).
    { intros w G. assert (NW : ~ working_key (KStr x)) by (eapply clean_working; [apply (frame_inv n f FA)|exact G]).
      eapply (wfind x k up (ps_up s) (k_up st) RU n cur (ps_dic s) (k_cur st) f w); eauto. now apply wdic_none. }
    apply indices_inv in IX as [[-> ->]|(q & -> & -> & Q)]; cbn [dict_value] in DV.
    - destruct (dget (KStr x) (cf_dict f)) as [w|] eqn:D; [|discriminate]. injection DV as ->. now rewrite (FU v eq_refl).
    - destruct (index_value (ps_loops s) q) as [i| |] eqn:I; try discriminate. cbn [cbind] in DV.
      destruct (dget (KStr x) (cf_dict f)) as [[| | |a| | | |]|] eqn:D; try discriminate. rewrite (FU _ eq_refl).
      destruct (index_both lv _ q i LO Q I) as [G _]. cbn [mapM]. rewrite G. cbn [bind array_get].
      destruct (dget (KInt i) a); [|discriminate]. now injection DV as ->.
  Qed.

  Lemma told_app a b : Forall told (a ++ b) -> Forall told a /\ Forall told b.
  Proof. apply Forall_app. Qed.

  Lemma asked_var x ix n k f : known x lv = false -> resolve x (cur :: up) = Some (n, k) -> frame_at n st = Some f -> Forall told (asked up lv cur st (EVar x ix)) ->
    existsb (has x) (firstn n (k_cur st :: k_up st)) = false /\
    (did_read (k_loops st) f x ix = Val false -> own_name x = false /\ existsb (has x) (k_cur st :: k_up st) = false).
  Proof.
    intros KN R FA T. cbn [asked] in T. rewrite KN, R, FA in T. apply Forall_app in T as [T1 T2]. split.
    - destruct (existsb (has x) (firstn n (k_cur st :: k_up st))); [|reflexivity]. inversion T1; contradiction.
    - intros D. rewrite D in T2. destruct (own_name x || existsb (has x) (k_cur st :: k_up st)) eqn:E; [inversion T2; contradiction|].
      now apply orb_false_iff in E.
  Qed.

  Lemma weval_both depth e : forall z, Forall told (asked up lv cur st e) -> int_expr up lv cur e = true -> ceval up lv cur st e = Val z -> outcome s depth e z.
  Proof.
    induction e as [x ix|x ix|dz n|a IHa|a IHa b IHb|a IHa b IHb|a IHa b IHb|a IHa b IHb|a IHa b IHb]; intros z IU IE CE;
      try (cbn [int_expr ceval asked] in IU, IE, CE); try discriminate; unfold outcome; rewrite eval_expr_eq; cbn zeta.
    - unfold eval_var. destruct (known x lv) eqn:KN.
      + destruct (lget x (k_loops st)) as [i|] eqn:LG; [|discriminate]. injection CE as ->. rewrite LL in LG.
        unfold get_raw. cbn [scope_of sc_loops sc_dic]. rewrite LG. destruct (dget (KStr x) (ps_dic s)); [exact Logic.I|]. reflexivity.
      + destruct (indices_ok lv ix) as [arr|] eqn:IX; [|discriminate].
        destruct (resolve x (cur :: up)) as [[n k]|] eqn:RS; [|discriminate].
        apply kind_eqb_eq in IE. subst k. destruct (frame_at n st) as [f|] eqn:FA; [|discriminate].
        destruct (cell_value (k_loops st) f x ix) as [v| |] eqn:CV; try discriminate. cbn [cbind] in CE.
        destruct v as [[y| |]| | | | | | |]; try discriminate. injection CE as ->.
        apply cell_dict in CV; [|apply (frame_inv n f FA)]. rewrite LL in CV.
        assert (IU' : Forall told (asked up lv cur st (EVar x ix))) by (cbn [asked]; rewrite KN, RS, FA; exact IU).
        destruct (asked_var x ix n _ f KN RS FA IU') as [HX _].
        assert (NK : (if arr then KArr TInt else KScal TInt) <> KSec) by (destruct arr; discriminate).
        rewrite (dict_value_looked n _ f x ix arr (vint z) KN IX RS NK FA HX CV). reflexivity.
    - destruct n as [y| |]; try discriminate. apply c_int_val in CE as [-> _]. reflexivity.
    - destruct (ceval up lv cur st a) as [x| |]; try discriminate. cbn [cbind] in CE. apply c_int_val in CE as [-> _].
      specialize (IHa x IU IE eq_refl). unfold outcome in IHa.
      destruct (eval_expr depth (scope_of s) true true false a) as [t|er]; [subst t; reflexivity|exact IHa].
    - apply andb_true_iff in IE as [I1 I2]. destruct (ceval up lv cur st a) as [x| |]; try discriminate. cbn [cbind] in CE.
      destruct (ceval up lv cur st b) as [y| |]; try discriminate. cbn [cbind] in CE. apply c_int_val in CE as [-> _].
      apply told_app in IU as [U1 U2]. specialize (IHa x U1 I1 eq_refl). specialize (IHb y U2 I2 eq_refl). unfold outcome in IHa, IHb.
      destruct (eval_expr depth (scope_of s) true true false a) as [t|er]; [subst t|exact IHa]. cbn [bind].
      destruct (eval_expr depth (scope_of s) true true false b) as [t|er]; [subst t; reflexivity|exact IHb].
    - apply andb_true_iff in IE as [I1 I2]. destruct (ceval up lv cur st a) as [x| |]; try discriminate. cbn [cbind] in CE.
      destruct (ceval up lv cur st b) as [y| |]; try discriminate. cbn [cbind] in CE. apply c_int_val in CE as [-> _].
      apply told_app in IU as [U1 U2]. specialize (IHa x U1 I1 eq_refl). specialize (IHb y U2 I2 eq_refl). unfold outcome in IHa, IHb.
      destruct (eval_expr depth (scope_of s) true true false a) as [t|er]; [subst t|exact IHa]. cbn [bind].
      destruct (eval_expr depth (scope_of s) true true false b) as [t|er]; [subst t; reflexivity|exact IHb].
    - apply andb_true_iff in IE as [I1 I2]. destruct (ceval up lv cur st a) as [x| |]; try discriminate. cbn [cbind] in CE.
      destruct (ceval up lv cur st b) as [y| |]; try discriminate. cbn [cbind] in CE. apply c_int_val in CE as [-> _].
      apply told_app in IU as [U1 U2]. specialize (IHa x U1 I1 eq_refl). specialize (IHb y U2 I2 eq_refl). unfold outcome in IHa, IHb.
      destruct (eval_expr depth (scope_of s) true true false a) as [t|er]; [subst t|exact IHa]. cbn [bind].
      destruct (eval_expr depth (scope_of s) true true false b) as [t|er]; [subst t|exact IHb]. cbn [bind].
      change (coef0 (vint 0)) with true. cbn [negb andb]. change (math_mul (vint x) (vint y)) with (Ok (vint (x * y))).
      change (math_mul (vint x) (vint 0)) with (Ok (vint (x * 0))). cbn [bind]. now rewrite Z.mul_0_r.
  Qed.

  Lemma wunread_fails depth e : Forall told (asked up lv cur st e) -> int_expr up lv cur e = true -> all_read up lv cur st e = Val false ->
    forall t, eval_expr depth (scope_of s) true true false e <> Ok t.
  Proof.
    assert (TWO : forall a b, Forall told (asked up lv cur st a ++ asked up lv cur st b) -> (Forall told (asked up lv cur st a) -> int_expr up lv cur a = true -> all_read up lv cur st a = Val false -> forall t, eval_expr depth (scope_of s) true true false a <> Ok t) ->
      (Forall told (asked up lv cur st b) -> int_expr up lv cur b = true -> all_read up lv cur st b = Val false -> forall t, eval_expr depth (scope_of s) true true false b <> Ok t) ->
      int_expr up lv cur a && int_expr up lv cur b = true ->
      (let* x := all_read up lv cur st a in if (x : bool) then all_read up lv cur st b else Val false) = Val false ->
      (forall t, eval_expr depth (scope_of s) true true false a <> Ok t) \/ (forall t, eval_expr depth (scope_of s) true true false b <> Ok t)).
    { intros a b IU IHa IHb IE AR. apply told_app in IU as [U1 U2]. apply andb_true_iff in IE as [I1 I2]. destruct (all_read up lv cur st a) as [x| |]; try discriminate. cbn [cbind] in AR.
      destruct x; auto. }
    induction e as [x ix|x ix|dz n|a IHa|a IHa b IHb|a IHa b IHb|a IHa b IHb|a IHa b IHb|a IHa b IHb]; intros IU IE AR t;
      try (cbn [int_expr all_read asked] in IU, IE, AR); try discriminate; rewrite eval_expr_eq; cbn zeta.
    - unfold eval_var. destruct (known x lv) eqn:KN; [discriminate|].
      destruct (indices_ok lv ix) as [arr|] eqn:IX; [|discriminate].
      destruct (resolve x (cur :: up)) as [[n k]|] eqn:RS; [|discriminate].
      apply kind_eqb_eq in IE. subst k. destruct (frame_at n st) as [f|] eqn:FA; [|discriminate].
      assert (IU' : Forall told (asked up lv cur st (EVar x ix))) by (cbn [asked]; rewrite KN, RS, FA; exact IU).
      destruct (asked_var x ix n _ f KN RS FA IU') as [_ HX]. destruct (HX AR) as [ON HH]. cbn [existsb] in HH. apply orb_false_iff in HH as [H0 H1].
      assert (NW : ~ working_key (KStr x)) by (rewrite <- own_name_iff; congruence).
      unfold get_raw. cbn [scope_of sc_loops sc_dic sc_up]. rewrite (lget_known x lv _ LO KN).
      rewrite (wfind_none x up (ps_up s) (k_up st) RU NW H1).
      + cbn [bind]. discriminate.
      + rewrite (wdic_none _ _ _ RC NW). unfold has in H0. now destruct (dget (KStr x) (cf_dict (k_cur st))).
    - specialize (IHa IU IE AR). destruct (eval_expr depth (scope_of s) true true false a) as [p|]; cbn [bind]; [|discriminate]. exfalso. exact (IHa p eq_refl).
    - destruct (TWO a b IU IHa IHb IE AR) as [H|H]; destruct (eval_expr depth (scope_of s) true true false a) as [[[c1 k1] u1]|]; cbn [bind]; try discriminate;
        [exfalso; exact (H _ eq_refl)|]. destruct (eval_expr depth (scope_of s) true true false b) as [p|]; cbn [bind]; try discriminate. exfalso. exact (H p eq_refl).
    - destruct (TWO a b IU IHa IHb IE AR) as [H|H]; destruct (eval_expr depth (scope_of s) true true false a) as [[[c1 k1] u1]|]; cbn [bind]; try discriminate;
        [exfalso; exact (H _ eq_refl)|]. destruct (eval_expr depth (scope_of s) true true false b) as [p|]; cbn [bind]; try discriminate. exfalso. exact (H p eq_refl).
    - destruct (TWO a b IU IHa IHb IE AR) as [H|H]; destruct (eval_expr depth (scope_of s) true true false a) as [[[c1 k1] u1]|]; cbn [bind]; try discriminate;
        [exfalso; exact (H _ eq_refl)|]. destruct (eval_expr depth (scope_of s) true true false b) as [p|]; cbn [bind]; try discriminate. exfalso. exact (H p eq_refl).
  Qed.

  Lemma wcond_both en q b b' : Forall told (cond_asked up lv cur st q) -> int_cond up lv cur q = true -> truthvalue en (scope_of s) q = Ok b -> ccond up lv cur st q = Val b' -> b = b'.
  Proof.
    revert b b'. induction q as [r x y|q1 IH1 q2 IH2|q1 IH1 q2 IH2]; intros b b' IU IC T C; cbn [int_cond truthvalue ccond cond_asked] in *; apply told_app in IU as [U1 U2].
    - apply andb_true_iff in IC as [I1 I2]. unfold eval_relation, eval_known in T.
      destruct (all_read up lv cur st x) as [[]| |] eqn:AR; try discriminate; cbn [cbind] in C.
      + destruct (ceval up lv cur st x) as [a| |] eqn:CX1; try discriminate. cbn [cbind] in C.
        destruct (ceval up lv cur st y) as [c| |] eqn:CY; try discriminate. cbn [cbind] in C. injection C as <-.
        pose proof (weval_both (e_depth en) x a U1 I1 CX1) as O1. pose proof (weval_both (e_depth en) y c U2 I2 CY) as O2. unfold outcome in O1, O2.
        destruct (eval_expr (e_depth en) (scope_of s) true true false x) as [p|er]; [subst p|destruct er; try discriminate T; contradiction].
        cbn [bind] in T. destruct (eval_expr (e_depth en) (scope_of s) true true false y) as [p|er]; [subst p|destruct er; try discriminate T; contradiction].
        cbn [bind] in T. rewrite num_cmp_int in T. now injection T.
      + injection C as <-. pose proof (wunread_fails (e_depth en) x U1 I1 AR) as UF.
        destruct (eval_expr (e_depth en) (scope_of s) true true false x) as [p|er]; [exfalso; exact (UF p eq_refl)|].
        cbn [bind] in T. destruct er; try discriminate T. now injection T.
    - apply andb_true_iff in IC as [I1 I2]. destruct (truthvalue en (scope_of s) q1) as [x|]; [|discriminate]. cbn [bind] in T.
      destruct (ccond up lv cur st q1) as [y| |]; try discriminate. cbn [cbind] in C. specialize (IH1 x y U1 I1 eq_refl eq_refl). subst y.
      destruct x; [eauto|congruence].
    - apply andb_true_iff in IC as [I1 I2]. destruct (truthvalue en (scope_of s) q1) as [x|]; [|discriminate]. cbn [bind] in T.
      destruct (ccond up lv cur st q1) as [y| |]; try discriminate. cbn [cbind] in C. specialize (IH1 x y U1 I1 eq_refl eq_refl). subst y.
      destruct x; [congruence|eauto].
  Qed.
End Levels.
