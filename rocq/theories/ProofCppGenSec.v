(** Fields of records, tables and sections of the generated C++ functions and of the Python
    interpreter. *)
From Coq Require Import Ascii String ZArith Bool Lia List.
From Verif Require Import PyBase ProofPyBase PyFloat ModelFortran ModelRecords ModelNum ModelRecipe ModelInterp
  ModelCpp ModelCppTab ModelCppArr SpecCpp SpecCppTab SpecCppRead ModelCppGen SpecCppGen.
From Verif Require Import ProofInterp ProofInterpSec ProofInterpFrame ProofInterpMap.
From Verif Require Import ProofCppArr ProofCppGenRead ProofCppGenMap ProofCppGenEval ProofCppGenReg.
Import ListNotations.
Open Scope Z_scope.

(** ** Fields *)

Lemma set_dic_twice d e s : set_dic d (set_dic e s) = set_dic d s.
Proof. reflexivity. Qed.

Section Fields.
  Variables (en : env) (o : copts) (sp : list str) (wk : str -> option val) (F : vars) (up : list vars) (lv : list str) (line : str).

  Lemma fields_both : forall fs vs cur cur' s st a s' st',
    reg_fields up lv cur fs = Some cur' -> sub cur' F -> (forall x, In x (cf_names fs) -> ~ In x sp) ->
    Forall2 (fun v p => forall w, read_field o (snd (fst p)) line (fst (fst p)) = Val w -> num_alike v w) vs fs ->
    frel sp wk F (ps_dic s) (k_cur st) -> k_loops st = ps_loops s -> loops_ok lv (ps_loops s) ->
    map_fields en (combine (map vn vs) (map snd fs)) s = (Ok a, s') -> run_fields o up lv cur line fs st = Val st' ->
    Forall regular_note (k_notes st') ->
    a = false /\ (exists d', s' = set_dic d' s) /\ frel sp wk F (ps_dic s') (k_cur st') /\ cur_only st st'.
  Proof.
    induction fs as [|[[j t] e] fs IH]; intros vs cur cur' s st a s' st' RG SF HN VS FR KL LO MF RF NT.
    - inversion VS; subst. cbn [map combine map_fields run_fields] in *. injection MF as <- <-. injection RF as <-.
      split; [reflexivity|]. split; [exists (ps_dic s); now destruct s|]. split; [exact FR|apply cur_only_refl].
    - inversion VS as [|v ? vs' ? V VS']; subst. cbn [map combine snd map_fields run_fields reg_fields cf_names flat_map] in *.
      destruct (reg_field up lv t cur e) as [c1|] eqn:RF1; [|discriminate]. cbs RF as m E.
      apply mbind_ok in MF as (a1 & s1 & M1 & MF). apply mbind_ok in MF as (a2 & s2 & M2 & MF). injection MF as <- <-.
      pose proof RF1 as RF2. unfold reg_field in RF2. unfold run_field in E. destruct (plan_of up lv cur t e) as [p|] eqn:PO; [|discriminate].
      injection RF2 as RP. cbs E as w E0. cbn [fst snd] in V. specialize (V w E0).
      pose proof (run_fields_grows _ _ _ _ _ _ _ _ RF) as G.
      destruct (field_both en o sp wk F up lv cur t e p v w s st a1 s1 m) as (-> & (d1 & ->) & FR1 & CO); auto.
      + intros x I. apply HN. apply in_or_app. now left.
      + rewrite RP. eapply sub_trans; [|exact SF]. apply reg_fields_adds in RG. apply RG.
      + eapply grows_regular; eauto.
      + destruct CO as (C1 & C2 & C3).
        destruct (IH vs' c1 cur' (set_dic d1 s) m a2 s2 st') as (-> & (d2 & ->) & FR2 & CO2); auto.
        * intros x I. apply HN. apply in_or_app. now right.
        * cbn [set_dic ps_loops]. congruence.
        * split; [reflexivity|]. split; [exists d2; reflexivity|]. split; [exact FR2|]. eapply cur_only_trans; [|exact CO2]. repeat split; assumption.
  Qed.
  Lemma read_both fs vs cur cur' s st s' st' :
    reg_fields up lv cur fs = Some cur' -> sub cur' F -> (forall x, In x (cf_names fs) -> ~ In x sp) ->
    Forall2 (fun v p => forall w, read_field o (snd (fst p)) line (fst (fst p)) = Val w -> num_alike v w) vs fs ->
    frel sp wk F (ps_dic s) (k_cur st) -> k_loops st = ps_loops s -> loops_ok lv (ps_loops s) ->
    map_read en (combine (map vn vs) (map snd fs)) s = (Ok tt, s') -> run_fields o up lv cur line fs st = Val st' ->
    Forall regular_note (k_notes st') ->
    (exists d', s' = set_dic d' s) /\ frel sp wk F (ps_dic s') (k_cur st') /\ cur_only st st'.
  Proof.
    intros RG SF HN VS FR KL LO MR RF NT. unfold map_read in MR. cbn [map_tries] in MR. apply mbind_ok in MR as (a & s1 & M1 & MR).
    destruct (fields_both fs vs cur cur' s st a s1 st') as (-> & H & I & J); auto. injection MR as <-. auto.
  Qed.

  (** names that are not in the fields keep their values *)
  Lemma run_fields_other x : forall fs cur st st', ~ In x (cf_names fs) ->
    run_fields o up lv cur line fs st = Val st' -> vget x (cf_vars (k_cur st')) = vget x (cf_vars (k_cur st)).
  Proof.
    induction fs as [|[[j t] e] fs IH]; intros cur st st' NX H; cbn [run_fields] in H; [injection H as <-; reflexivity|].
    cbn [cf_names flat_map snd] in NX. rewrite in_app_iff in NX.
    destruct (reg_field up lv t cur e) as [c1|]; [|discriminate]. cbs H as m E. rewrite (IH _ _ _ (fun Q => NX (or_intror Q)) H).
    unfold run_field in E. destruct (plan_of up lv cur t e) as [p|] eqn:PO; [|discriminate]. cbs E as w E0.
    assert (AS : forall y ix f f' u L, y <> x -> assign L f y ix u = Val f' -> vget x (cf_vars f') = vget x (cf_vars f)).
    { intros y ix f f' u L YX A. destruct ix as [|q [|]]; cbn [assign] in A; try discriminate.
      - injection A as <-. cbn [set_cell cf_vars]. now rewrite vget_vset_other by congruence.
      - cb A. cb A. injection A as <-. cbn [set_cell cf_vars]. now rewrite vget_vset_other by congruence. }
    assert (PV : forall y ix, In y (field_name e) -> plan_var up lv cur t y ix = Some p -> vget x (cf_vars (k_cur m)) = vget x (cf_vars (k_cur st))).
    { intros y ix IY PV. assert (YX : y <> x) by (intros ->; apply NX; now left).
      unfold plan_var in PV. destruct (known y lv); [discriminate|]. destruct (indices_ok lv ix); [|discriminate].
      destruct (resolve y (cur :: up)) as [[n k]|] eqn:RS.
      - destruct (kind_eqb _ _); [|discriminate]. injection PV as <-. cbn [run_plan] in E.
        cbs E as bb E1. destruct bb; [cb E; cb E; injection E as <-; reflexivity|].
        cb E. injection E as <-. cbn [with_cur k_cur]. eapply AS; eauto.
      - injection PV as <-. cbn [run_plan] in E. cb E. cb E. injection E as <-. cbn [with_notes with_cur k_cur]. eapply AS; eauto. }
    destruct e as [y ix|y ix|dz n| | | | | |]; cbn [plan_of field_name] in *; try discriminate; try (eapply PV; eauto; now left).
    destruct n; try discriminate PO; injection PO as <-; cbn [run_plan] in E; cb E; injection E as <-; reflexivity.
  Qed.
End Fields.

(** ** Columns of tables *)

Fixpoint sets (l : list (str * val)) (d : dict) : dict :=
  match l with [] => d | (x, v) :: r => sets r (dset (KStr x) v d) end.
Lemma sets_out x : forall l d, ~ In x (map fst l) -> dget (KStr x) (sets l d) = dget (KStr x) d.
Proof.
  induction l as [|[y v] l IH]; intros d N; [reflexivity|]. cbn [sets map fst In] in *. rewrite IH by tauto.
  apply dget_dset_other. intros E. injection E as E. apply N. now left.
Qed.
Lemma sets_in x v : forall l d, NoDup (map fst l) -> In (x, v) l -> dget (KStr x) (sets l d) = Some v.
Proof.
  induction l as [|[y w] l IH]; intros d N I; [destruct I|]. cbn [sets map fst] in *. inversion N as [|? ? N1 N2]; subst.
  destruct I as [I|I]; [injection I as -> ->; rewrite sets_out by exact N1; apply dget_dset_same|]. now apply IH.
Qed.
Lemma sets_int z : forall l d, dget (KInt z) (sets l d) = dget (KInt z) d.
Proof. induction l as [|[y v] l IH]; intros d; [reflexivity|]. cbn [sets]. rewrite IH. apply dget_dset_other. discriminate. Qed.
Lemma sets_nodup : forall l d, NoDup (map fst d) -> NoDup (map fst (sets l d)).
Proof. induction l as [|[y v] l IH]; intros d N; [exact N|]. cbn [sets]. apply IH. now apply dset_nodup. Qed.
Lemma sets_ext l m d : NoDup (map fst l) -> NoDup (map fst m) -> (forall p, In p l <-> In p m) -> forall k, dget k (sets l d) = dget k (sets m d).
Proof.
  intros N1 N2 H [z|x]; [now rewrite !sets_int|].
  destruct (in_dec (list_eq_dec ascii_dec) x (map fst l)) as [I|I].
  - apply in_map_iff in I as ((y & v) & E & I). cbn [fst] in E. subst y. rewrite (sets_in x v l d N1 I). symmetry. apply sets_in; [exact N2|]. now apply H.
  - rewrite (sets_out x l d I). symmetry. apply sets_out. intros J. apply I. apply in_map_iff in J as (p & E & J). apply H in J.
    apply in_map_iff. eauto.
Qed.

(** Python: names that have no value yet *)
Lemma map_new en : forall l s, NoDup (map fst l) -> (forall x, In x (map fst l) -> lget x (ps_loops s) = None /\ dget (KStr x) (ps_dic s) = None) ->
  map_fields en (map (fun p => (snd p, EVar (fst p) [])) l) s = (Ok false, set_dic (sets l (ps_dic s)) s).
Proof.
  induction l as [|[x v] l IH]; intros s N H; cbn [map sets map_fields fst snd] in *; [unfold ret; now destruct s|].
  inversion N as [|? ? N1 N2]; subst. destruct (H x (or_introl eq_refl)) as [LG DG].
  unfold mbind at 1. unfold map_field. rewrite eval_expr_eq. unfold eval_var, get_raw. cbn [scope_of sc_loops sc_dic]. rewrite LG, DG. cbn [bind missing andb].
  change (solve (negb (o_all (ps_opts s))) (vint 0) (vint 1) v) with (Ok v : result val). cbn iota.
  change ((run _ <- set_var (x, []) v; ret false) s) with ((Ok false, set_dic (dset (KStr x) v (ps_dic s)) s) : result bool * pstate).
  unfold mbind. rewrite IH; [reflexivity|exact N2|]. intros y Y. cbn [set_dic ps_loops ps_dic]. destruct (H y (or_intror Y)) as [H1 H2]. split; [exact H1|].
  rewrite dget_dset_other; [exact H2|]. intros E. injection E as ->. contradiction.
Qed.

Lemma columns_both up : forall cols cur st wk F d st', frel working wk F d (k_cur st) ->
  (forall x, In x (map fst cols) -> kget x F = Some KTab /\ ~ In x working) -> NoDup (map fst cols) ->
  run_columns up cur (map (fun p => (fst p, snd (snd p))) cols) st = Val st' -> Forall (fun p => alike_val (fst (snd p)) (snd (snd p))) cols ->
  Forall regular_note (k_notes st') ->
  frel working wk F (sets (map (fun p => (fst p, fst (snd p))) cols) d) (k_cur st') /\ cur_only st st' /\
  (forall x, In x (map fst cols) -> dget (KStr x) d = None).
Proof.
  induction cols as [|[x [v w]] cols IH]; intros cur st wk F d st' FR HK ND RC AL NT; cbn [map run_columns sets fst snd] in *.
  - injection RC as <-. split; [exact FR|]. split; [apply cur_only_refl|]. intros x [].
  - inversion AL as [|? ? A1 A2]; subst. cbn [fst snd] in A1. inversion ND as [|? ? N1 N2]; subst.
    destruct (HK x (or_introl eq_refl)) as [KX WX]. cbs RC as st1 E.
    assert (NT1 : Forall regular_note (k_notes st1)) by (eapply grows_regular; [eapply run_columns_grows; exact RC|exact NT]).
    assert (NX : vget x (cf_vars (k_cur st)) = None /\ st1 = with_cur (set_cell x (CScal w) (k_cur st)) st).
    { destruct (vget x (cf_vars (k_cur st))) as [q|] eqn:Q; [|injection E as <-; auto]. destruct (resolve x (cur :: up)); [discriminate|]. injection E as <-.
      cbn [with_notes k_notes with_cur] in NT1. apply Forall_app in NT1 as [_ B]. inversion B; subst. contradiction. }
    destruct NX as [NX S1]. clear E.
    pose proof (frel_var _ _ _ _ _ _ _ FR KX ltac:(discriminate) WX) as EV. rewrite NX in EV.
    assert (FR1 : frel working wk F (dset (KStr x) v d) (k_cur st1)).
    { rewrite S1. cbn [with_cur k_cur]. apply (frel_set _ _ _ _ _ x KTab); auto; exact Logic.I. }
    destruct (IH _ st1 wk F (dset (KStr x) v d) _ FR1 (fun y Y => HK y (or_intror Y)) N2 RC A2 NT) as (R & C & D).
    split; [exact R|]. split; [eapply cur_only_trans; [|exact C]; subst st1; repeat split|].
    intros y [<-|Y]; [exact EV|]. specialize (D y Y). rewrite dget_dset_other in D; [exact D|]. intros E. injection E as ->. contradiction.
Qed.

(** ** Dictionaries of sections *)

Lemma alike_nil d : alike_val (VDict d) (VDict []) -> d = [].
Proof.
  intros H. inversion H as [| | |? ? H1 H2]; subst. destruct d as [|[k v] d]; [reflexivity|]. exfalso.
  specialize (H1 k). cbn [dget] in H1. rewrite key_eqb_refl in H1. destruct H1 as [_ H1]. specialize (H1 eq_refl). discriminate.
Qed.
Lemma alike_get d e k : alike_val (VDict d) (VDict e) ->
  match dget k d, dget k e with Some v, Some w => alike_val v w | None, None => True | _, _ => False end.
Proof.
  intros H. inversion H as [| | |? ? H1 H2]; subst. specialize (H1 k). specialize (H2 k). destruct (dget k d) as [v|], (dget k e) as [w|]; auto.
  - destruct H1 as [_ H1]. specialize (H1 eq_refl). discriminate.
  - destruct H1 as [H1 _]. specialize (H1 eq_refl). discriminate.
Qed.
Lemma put_alike ks v w : alike_val v w -> forall p c, alike_val p c -> alike_val (put_path ks v p) (put_path ks w c).
Proof.
  intros V. induction ks as [|k ks IH]; intros p c A; [exact V|]. cbn [put_path]. inversion A as [?|?|?|d e H1 H2 EQ1 EQ2]; subst; try exact A.
  pose proof (alike_get d e k A) as G. destruct (dget k d) as [a|], (dget k e) as [b|]; try contradiction; [|exact A].
  apply alike_dset; [exact A|]. now apply IH.
Qed.
Lemma open_alike name : forall ix pv cv sh pin pv' fd cv' sh', ix <> [] -> alike_val pv cv ->
  open_path true name (map KInt ix) pv = Ok (pin, pv') -> shift_open ix cv sh = Val (fd, cv', sh') ->
  alike_val pv' cv' /\ alike_val (VDict pin) fd.
Proof.
  induction ix as [|i ix IH]; intros pv cv sh pin pv' fd cv' sh' NE A O S; [congruence|]. clear NE.
  cbn [map open_path] in O. cbn [shift_open] in S. destruct sh as [s0 acc next].
  inversion A as [?|?|?|d e H1 H2 EQ1 EQ2]; subst; try discriminate.
  set (old := match dget (KInt i) e with Some x => x | None => VDict [] end) in *.
  assert (PO : exists o' po, open_path true name (map KInt ix) po = Ok (pin, o') /\ alike_val po old /\ pv' = VDict (dset (KInt i) o' d)).
  { pose proof (alike_get d e (KInt i) A) as G. unfold old. destruct (dget (KInt i) d) as [a|], (dget (KInt i) e) as [b|]; try contradiction.
    - destruct (open_path true name (map KInt ix) a) as [[inn o']|] eqn:OP; [|discriminate]. cbn [bind] in O. injection O as -> <-.
      exists o', a. auto.
    - destruct (open_path true name (map KInt ix) (VDict [])) as [[inn o']|] eqn:OP; [|discriminate]. cbn [bind] in O. injection O as -> <-.
      exists o', (VDict []). split; [exact OP|]. split; [apply alike_empty|reflexivity]. }
  destruct PO as (o' & po & OP & AP & ->). destruct ix as [|i2 ix].
  - injection S as <- <- _. cbn [map open_path] in OP. destruct po as [| | |dd| | | |]; try discriminate. injection OP as -> <-.
    split; [apply alike_dset; assumption|exact AP].
  - cb S. destruct a as [levels lv]. destruct (shift_open (i2 :: ix) old lv) as [[[f2 c2] sh2]| |] eqn:S2; try discriminate. cbn [cbind] in S.
    injection S as <- <- _. assert (NZ : i2 :: ix <> []) by discriminate. destruct (IH _ _ _ _ _ _ _ _ NZ AP OP S2) as [R1 R2]. split; [apply alike_dset; assumption|exact R2].
Qed.

Lemma frel_sec wk F d f x v w sh : frel working wk F d f -> kget x F = Some KSec -> ~ In x working -> alike_val v w ->
  frel working wk F (dset (KStr x) v d) {| cf_vars := cf_vars f; cf_dict := dset (KStr x) w (cf_dict f); cf_shift := sh |}.
Proof.
  intros R K N A.
  assert (NV : vget x (cf_vars f) = None).
  { destruct (vget x (cf_vars f)) as [c|] eqn:V; [|reflexivity]. destruct (fr_cell _ _ _ _ _ R x c V) as (k & K' & Fi).
    assert (k = KSec) by congruence. subst k. destruct c; contradiction. }
  split; cbn [cf_vars cf_dict].
  - intros z. rewrite dget_dset_other by discriminate. apply (fr_int _ _ _ _ _ R).
  - intros z. rewrite dget_dset_other by discriminate. apply (fr_cint _ _ _ _ _ R).
  - intros y Y. destruct (str_eqb y x) eqn:E.
    + apply str_eqb_eq in E. subst y. rewrite NV, !dget_dset_same. eauto.
    + assert (y <> x) by (now apply seq_neq). rewrite !dget_dset_other by congruence. now apply (fr_entry _ _ _ _ _ R).
  - apply (fr_cell _ _ _ _ _ R).
  - intros y u. destruct (str_eqb y x) eqn:E.
    + apply str_eqb_eq in E. subst y. intros _. exact K.
    + assert (y <> x) by (now apply seq_neq). rewrite dget_dset_other by congruence. apply (fr_sec _ _ _ _ _ R).
  - apply dset_nodup, (fr_keys _ _ _ _ _ R).
  - apply (fr_names _ _ _ _ _ R).
  - apply (fr_sp _ _ _ _ _ R).
  - intros y Y. rewrite dget_dset_other; [now apply (fr_work _ _ _ _ _ R)|]. intros E. injection E as E. apply N. now rewrite <- E.
Qed.
Lemma frel_sec_get wk F d f x : frel working wk F d f -> kget x F = Some KSec -> ~ In x working ->
  match dget (KStr x) d, dget (KStr x) (cf_dict f) with Some v, Some w => alike_val v w | None, None => True | _, _ => False end.
Proof.
  intros R K N. pose proof (fr_entry _ _ _ _ _ R x N) as E. destruct (vget x (cf_vars f)) as [c|] eqn:V.
  { destruct (fr_cell _ _ _ _ _ R x c V) as (k & K' & Fi). assert (k = KSec) by congruence. subst k. destruct c; contradiction. }
  destruct (dget (KStr x) (cf_dict f)) as [w|].
  - destruct E as (v & -> & A). exact A.
  - rewrite E. exact Logic.I.
Qed.

(** the beginning of a section *)
Lemma open_both en wk F x q s st s1 zs found f lv : e_write en = false -> frel working wk F (ps_dic s) (k_cur st) -> k_loops st = ps_loops s -> loops_ok lv (ps_loops s) ->
  kget x F = Some KSec -> ~ In x working -> forallb (index_ok lv) q = true ->
  open_section en (x, q) s = (Ok tt, s1) -> cmapM (index_value (k_loops st)) q = Val zs -> store_open x zs (k_cur st) = Val (found, f) ->
  exists d1 pin, s1 = set_up ({| fr_dic := d1; fr_name := x; fr_idx := zs |} :: ps_up s) (dset (KStr $"__up") VUp pin) s /\
    frel working wk F d1 f /\ alike_val (VDict pin) found.
Proof.
  intros W R KL LO K N IX O CM SO. unfold open_section in O. rewrite W in O. cbn [negb] in O.
  assert (ZS : mapM (get_indexvalue (ps_loops s)) q = Ok zs).
  { rewrite KL in CM. clear O SO. revert zs CM. induction q as [|a q IH]; intros zs CM; cbn [cmapM mapM forallb] in *; [injection CM as <-; reflexivity|].
    apply andb_true_iff in IX as [I1 I2]. cb CM. cb CM. injection CM as <-. destruct (index_both lv _ a a0 LO I1 E) as [-> _]. cbn [bind].
    rewrite (IH I2 _ eq_refl). reflexivity. }
  rewrite ZS in O. cbn [bind] in O. cbn [open_path] in O. pose proof (frel_sec_get wk F _ _ x R K N) as G. unfold store_open in SO.
  set (po := match dget (KStr x) (ps_dic s) with Some v => v | None => VDict [] end) in *.
  set (co := match dget (KStr x) (cf_dict (k_cur st)) with Some v => v | None => VDict [] end) in *.
  assert (AP : alike_val po co).
  { unfold po, co. destruct (dget (KStr x) (ps_dic s)), (dget (KStr x) (cf_dict (k_cur st))); try contradiction; [exact G|apply alike_empty]. }
  assert (OP : exists inner o', open_path true x (map KInt zs) po = Ok (inner, o') /\
     s1 = set_up ({| fr_dic := dset (KStr x) o' (ps_dic s); fr_name := x; fr_idx := zs |} :: ps_up s) (dset (KStr $"__up") VUp inner) s).
  { unfold po. destruct (dget (KStr x) (ps_dic s)) as [v|].
    - destruct (open_path true x (map KInt zs) v) as [[inn o']|]; cbn [bind] in O; [|discriminate]. injection O as <-. eauto.
    - destruct (open_path true x (map KInt zs) (VDict [])) as [[inn o']|]; cbn [bind] in O; [|discriminate]. injection O as <-. eauto. }
  destruct OP as (inner & o' & OP & ->). destruct zs as [|z zs].
  - injection SO as <- <-. cbn [map open_path] in OP. destruct po as [| | |dd| | | |] eqn:PE; try discriminate. injection OP as <- <-.
    eexists _, _. split; [reflexivity|]. split; [|exact AP]. now apply frel_sec.
  - destruct (shift_open (z :: zs) co _) as [[[fd c'] sh']| |] eqn:SH; try discriminate. cbn [cbind] in SO. injection SO as <- <-.
    assert (NZ : z :: zs <> []) by discriminate. destruct (open_alike x _ _ _ _ _ _ _ _ _ NZ AP OP SH) as [A1 A2].
    eexists _, _. split; [reflexivity|]. split; [|exact A2]. now apply frel_sec.
Qed.

(** the end of a section *)
Lemma store_vars_get x : forall l d, NoDup (map fst l) -> dget (KStr x) (store_vars l d) =
  match vget x l with Some c => match stored c with Some v => Some v | None => dget (KStr x) d end | None => dget (KStr x) d end.
Proof.
  induction l as [|[y c] l IH]; intros d N; [reflexivity|]. cbn [store_vars vget map fst] in *. inversion N as [|? ? N1 N2]; subst. rewrite IH by exact N2.
  destruct (str_eqb x y) eqn:E.
  - apply str_eqb_eq in E. subst y. destruct (vget x l) as [c'|] eqn:V.
    { exfalso. apply N1. clear - V. induction l as [|[z e] l IH]; [discriminate|]. cbn [vget] in V. cbn [map fst In].
      destruct (str_eqb x z) eqn:E; [left; symmetry; now apply str_eqb_eq|right; auto]. }
    destruct (stored c); [apply dget_dset_same|reflexivity].
  - assert (x <> y) by (now apply seq_neq). destruct (stored c); [rewrite !dget_dset_other by congruence|]; reflexivity.
Qed.
Lemma store_vars_int z : forall l d, dget (KInt z) (store_vars l d) = dget (KInt z) d.
Proof.
  induction l as [|[y c] l IH]; intros d; [reflexivity|]. cbn [store_vars]. rewrite IH. destruct (stored c); [apply dget_dset_other; discriminate|reflexivity].
Qed.
Lemma map_nv_cells (l : list val) : map nv_dict (map Cell l) = l.
Proof. induction l as [|v l IH]; [reflexivity|]. cbn [map nv_dict]. now rewrite IH. Qed.
Lemma dget_number_str y (l : list val) : forall s, dget (KStr y) (number s l) = None.
Proof. induction l as [|v l IH]; intros s; [reflexivity|]. cbn [number dget key_eqb]. apply IH. Qed.
Lemma number_alike pv cv s : Forall2 alike_val pv cv -> alike_val (VDict (number s pv)) (VDict (number s cv)).
Proof.
  intros F. constructor.
  - intros [z|y]; [|now rewrite !dget_number_str]. rewrite !dget_number. pose proof (Forall2_nthz pv cv (z - s) F) as M.
    destruct (nthz pv (z - s)), (nthz cv (z - s)); try contradiction; split; auto; discriminate.
  - intros [z|y] v w; [|rewrite !dget_number_str; discriminate]. rewrite !dget_number. pose proof (Forall2_nthz pv cv (z - s) F) as M.
    intros A B. rewrite A, B in M. exact M.
Qed.
Lemma cell_stored v c : cell_rel v c -> exists w, stored c = Some w /\ alike_val v w.
Proof.
  destruct c as [w|n]; cbn [cell_rel stored]; [eauto|]. intros (s & pv & cv & -> & -> & NE & S & F). cbn [nv_did_read].
  assert (LE : (0 < length cv)%nat) by (destruct cv; [congruence|cbn; lia]).
  replace (s + Z.of_nat (length cv) - 1 =? -1) with false by (symmetry; apply Z.eqb_neq; lia). cbn [negb]. eexists. split; [reflexivity|].
  cbn [nv_dict]. rewrite map_nv_cells. now apply number_alike.
Qed.
(** [d']: the dictionary without the entries of the interpreter *)
Lemma stored_alike wk F d d' f : frel working wk F d f -> (forall x k, kget x F = Some k -> ~ In x working) ->
  (forall x, In x working -> dget (KStr x) d' = None) -> (forall k, (forall x, In x working -> k <> KStr x) -> dget k d' = dget k d) ->
  alike_val (VDict d') (VDict (store_vars (cf_vars f) (cf_dict f))).
Proof.
  intros R W D1 D2.
  assert (G : forall k, match dget k d', dget k (store_vars (cf_vars f) (cf_dict f)) with Some v, Some w => alike_val v w | None, None => True | _, _ => False end).
  { intros [z|x].
    - rewrite store_vars_int, (fr_cint _ _ _ _ _ R), D2 by (intros y _; discriminate). now rewrite (fr_int _ _ _ _ _ R).
    - rewrite store_vars_get by apply (fr_names _ _ _ _ _ R). destruct (in_dec (list_eq_dec ascii_dec) x working) as [I|I].
      + rewrite (D1 x I). destruct (vget x (cf_vars f)) as [c|] eqn:V.
        { destruct (fr_cell _ _ _ _ _ R x c V) as (k & K & _). exfalso. exact (W x k K I). }
        destruct (dget (KStr x) (cf_dict f)) as [w|] eqn:DW; [|exact Logic.I]. apply (fr_sec _ _ _ _ _ R) in DW. exact (W x _ DW I).
      + rewrite D2 by (intros y Y E; injection E as ->; contradiction). pose proof (fr_entry _ _ _ _ _ R x I) as E.
        destruct (vget x (cf_vars f)) as [c|] eqn:V.
        * destruct E as (v & -> & C). destruct (cell_stored v c C) as (w & -> & A). exact A.
        * destruct (dget (KStr x) (cf_dict f)) as [w|]; [destruct E as (v & -> & A); exact A|]. rewrite E. exact Logic.I. }
  constructor.
  - intros k. specialize (G k). destruct (dget k d'), (dget k (store_vars _ _)); try contradiction; split; auto; discriminate.
  - intros k v w A B. specialize (G k). rewrite A, B in G. exact G.
Qed.

Lemma ddel_keys k d j : In j (map fst (ddel k d)) -> In j (map fst d).
Proof.
  induction d as [|[z w] d IH]; cbn [ddel map fst In]; [auto|]. destruct (key_eqb k z); cbn [map fst In]; tauto.
Qed.
Lemma ddel_nodup k (d : dict) : NoDup (map fst d) -> NoDup (map fst (ddel k d)).
Proof.
  induction d as [|[z w] d IH]; cbn [ddel map fst]; intros N; [constructor|]. inversion N as [|? ? N1 N2]; subst.
  destruct (key_eqb k z); [exact N2|]. cbn [map fst]. constructor; [|auto]. intros I. apply N1. eapply ddel_keys; eauto.
Qed.
Lemma dget_notin k (d : dict) : ~ In k (map fst d) -> dget k d = None.
Proof.
  induction d as [|[z w] d IH]; [reflexivity|]. cbn [map fst In dget]. intros N. destruct (key_eqb k z) eqn:E.
  - apply key_eqb_eq in E. subst z. exfalso. apply N. now left.
  - apply IH. tauto.
Qed.
Lemma dget_ddel_gone k (d : dict) : NoDup (map fst d) -> dget k (ddel k d) = None.
Proof.
  induction d as [|[z w] d IH]; intros N; [reflexivity|]. cbn [ddel map fst] in *. inversion N as [|? ? N1 N2]; subst. destruct (key_eqb k z) eqn:E.
  - apply key_eqb_eq in E. subst z. now apply dget_notin.
  - cbn [dget]. rewrite E. auto.
Qed.
Lemma dget_ddel_keep k j (d : dict) : k <> j -> dget k (ddel j d) = dget k d.
Proof.
  intros N. induction d as [|[z w] d IH]; [reflexivity|]. cbn [ddel dget]. destruct (key_eqb j z) eqn:E.
  - apply key_eqb_eq in E. subst z. destruct (key_eqb k j) eqn:E2; [apply key_eqb_eq in E2; contradiction|reflexivity].
  - cbn [dget]. now rewrite IH.
Qed.

(** the enclosing dictionaries after a section *)
Lemma put_both wk F d0 f x zs p c d' : frel working wk F d0 f -> kget x F = Some KSec -> ~ In x working -> alike_val p c ->
  put_path (KStr x :: map KInt zs) c (VDict (cf_dict f)) = VDict d' ->
  exists e, put_path (KStr x :: map KInt zs) p (VDict d0) = VDict e /\
    frel working wk F e {| cf_vars := cf_vars f; cf_dict := d'; cf_shift := cf_shift f |}.
Proof.
  intros R K N A P. cbn [put_path] in *. pose proof (frel_sec_get wk F d0 f x R K N) as G.
  destruct (dget (KStr x) d0) as [a|], (dget (KStr x) (cf_dict f)) as [b|]; try contradiction.
  - injection P as <-. eexists. split; [reflexivity|]. apply frel_sec; auto. now apply put_alike.
  - injection P as <-. eexists. split; [reflexivity|]. destruct f; exact R.
Qed.
