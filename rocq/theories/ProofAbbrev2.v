(** A recipe and the recipe in which the abbreviations are replaced: related states. *)
From Coq Require Import Ascii String ZArith Bool Lia List.
From Verif Require Import PyBase ModelFortran ModelRecords ModelNum ModelRecipe ModelInterp.
From Verif Require Import SpecInterp SpecRound SpecAbbrev ProofPyBase ProofInterp ProofInterpSec ProofInterpMap ProofRound3 ProofAbbrev.
Import ListNotations.
Open Scope Z_scope.

Lemma dget_ddel_dset x y v d : x <> y -> dget (KStr y) (ddel (KStr y) (dset (KStr x) v d)) = dget (KStr y) (ddel (KStr y) d).
Proof.
  intros N. induction d as [|[k w] r IH].
  - cbn [dset ddel dget]. rewrite key_eqb_neq by congruence. cbn [dget]. now rewrite key_eqb_neq by congruence.
  - cbn [dset ddel]. destruct (key_eqb (KStr x) k) eqn:Qx.
    + apply key_eqb_eq in Qx. subst k. cbn [ddel]. rewrite key_eqb_neq by congruence. cbn [dget].
      rewrite key_eqb_neq by congruence. reflexivity.
    + cbn [ddel]. destruct (key_eqb (KStr y) k) eqn:Qy; [now apply dget_dset_other; congruence|].
      cbn [dget]. rewrite Qy. exact IH.
Qed.

Section Relation.
  Variable B secs res : list str.
  Variable strict : bool.

  Definition K (x : str) : Prop := strict = true -> ~ In x res.
  Definition KK (k : key) : Prop := match k with KStr x => K x | KInt _ => True end.

  (** values without expressions in which reserved names are not keys *)
  Inductive tidy : val -> Prop :=
  | t_num n : tidy (VNum n)
  | t_str s : tidy (VStr s)
  | t_list l : Forall tidy l -> tidy (VList l)
  | t_dict d : Forall (fun kv => KK (fst kv) /\ tidy (snd kv)) d -> tidy (VDict d)
  | t_none : tidy VNone
  | t_up : tidy VUp
  | t_names l : tidy (VNames l).
  Definition dtidy (d : dict) : Prop := Forall (fun kv => KK (fst kv) /\ tidy (snd kv)) d.

  Lemma dtidy_val d : tidy (VDict d) <-> dtidy d.
  Proof. split; [intros H; inversion H; assumption|intros H; now constructor]. Qed.
  Lemma dtidy_get d k v : dtidy d -> dget k d = Some v -> KK k /\ tidy v.
  Proof.
    intros H. induction H as [|[k' w] r [P Q] H IH]; cbn [dget]; [discriminate|].
    destruct (key_eqb k k') eqn:E; [|exact IH]. intros G. injection G as <-. apply key_eqb_eq in E. subst k'. auto.
  Qed.
  Lemma dtidy_set d k v : KK k -> tidy v -> dtidy d -> dtidy (dset k v d).
  Proof.
    intros P Q H. induction H as [|[k' w] r [P' Q'] H IH]; cbn [dset]; [repeat constructor; auto|].
    destruct (key_eqb k k') eqn:E; constructor; cbn [fst snd]; auto.
  Qed.
  Lemma dtidy_del d k : dtidy d -> dtidy (ddel k d).
  Proof.
    intros H. induction H as [|[k' w] r P H IH]; cbn [ddel]; [constructor|].
    destruct (key_eqb k k'); [exact H|constructor; auto].
  Qed.
  Lemma dtidy_rm d N : dtidy d -> dtidy (rm N d).
  Proof.
    intros H. induction H as [|[k' w] r P H IH]; [constructor|]. rewrite rm_cons. destruct (kept N k'); [constructor; auto|exact IH].
  Qed.
  Lemma tidy_array_get ids : forall v w, tidy v -> array_get v ids = Ok w -> tidy w.
  Proof.
    induction ids as [|i r IH]; intros v w T; cbn [array_get]; [intros H; injection H as <-; exact T|].
    destruct v; try discriminate.
    - destruct (existsb _ l); [|discriminate]. intros H. apply bind_ok in H as (u & H1 & H). eapply IH; [|exact H].
      unfold list_index in H1. cbv zeta in H1. destruct (_ || _); [discriminate|].
      destruct (nth_error l _) eqn:E; [|discriminate]. injection H1 as <-. inversion T as [| |? F| | | |]; subst.
      apply nth_error_In in E. rewrite Forall_forall in F. auto.
    - destruct (dget (KInt i) d) as [u|] eqn:E; [|discriminate]. intros H. eapply IH; [|exact H].
      apply dtidy_val in T. now destruct (dtidy_get _ _ _ T E).
  Qed.
  Lemma tidy_set_indexed ids v : forall cur arr, tidy v -> tidy cur -> set_indexed ids v cur = Ok arr -> tidy arr.
  Proof.
    induction ids as [|i r IH]; intros cur arr T C; cbn [set_indexed]; [intros H; injection H as <-; exact T|].
    destruct cur; try discriminate. intros H. apply bind_ok in H as (sub & H1 & H). injection H as <-.
    apply dtidy_val in C. apply dtidy_val. apply dtidy_set; [exact I| |exact C].
    eapply IH; [exact T| |exact H1]. destruct (dget (KInt i) d) eqn:E; [now destruct (dtidy_get _ _ _ C E)|constructor; constructor].
  Qed.
  Lemma tidy_open create name ks : forall cur inner cur', Forall KK ks -> tidy cur ->
    open_path create name ks cur = Ok (inner, cur') -> dtidy inner /\ tidy cur'.
  Proof.
    induction ks as [|k r IH]; intros cur inner cur' F C; cbn [open_path].
    - destruct cur; try discriminate. intros H. injection H as <- <-. split; [now apply dtidy_val|exact C].
    - inversion F as [|? ? F1 F2]; subst. destruct cur; try discriminate. apply dtidy_val in C.
      destruct (dget k d) as [o|] eqn:E.
      + intros H. apply bind_ok in H as ([i o'] & H1 & H). injection H as <- <-.
        destruct (IH _ _ _ F2 (proj2 (dtidy_get _ _ _ C E)) H1). split; [assumption|]. apply dtidy_val, dtidy_set; assumption.
      + destruct create; [|discriminate]. intros H. apply bind_ok in H as ([i o'] & H1 & H). injection H as <- <-.
        destruct (IH (VDict []) _ _ F2 ltac:(constructor; constructor) H1). split; [assumption|]. apply dtidy_val, dtidy_set; assumption.
  Qed.
  Lemma tidy_put ks v : forall old, tidy v -> tidy old -> tidy (put_path ks v old).
  Proof.
    induction ks as [|k r IH]; intros old T C; cbn [put_path]; [exact T|].
    destruct old; try exact C. destruct (dget k d) as [o|] eqn:E; [|exact C].
    apply dtidy_val in C. destruct (dtidy_get _ _ _ C E). apply dtidy_val, dtidy_set; auto.
  Qed.
  Lemma tidy_nums l : tidy (VList (map VNum l)).
  Proof. constructor. apply Forall_forall. intros x H. apply in_map_iff in H as (n & <- & _). constructor. Qed.

  Lemma mapM_forall {X Y} (f : X -> result Y) (P : Y -> Prop) l : forall r, (forall a b, f a = Ok b -> P b) -> mapM f l = Ok r -> Forall P r.
  Proof.
    induction l as [|a l' IH]; intros r H; cbn [mapM]; [intros E; injection E as <-; constructor|].
    intros E. apply bind_ok in E as (b & E1 & E). apply bind_ok in E as (bs & E2 & E). injection E as <-. constructor; eauto.
  Qed.
  Lemma math_op_tidy f x y r : math_op f x y = Ok r -> tidy r.
  Proof.
    unfold math_op. cbv zeta. destruct x; try discriminate; destruct y; try discriminate; intros H.
    - apply bind_ok in H as (r' & _ & H). injection H as <-. constructor.
    - apply bind_ok in H as (r' & H1 & H). injection H as <-. constructor. eapply mapM_forall; [|exact H1].
      intros a b G. apply bind_ok in G as (? & _ & G). apply bind_ok in G as (? & _ & G). apply bind_ok in G as (? & _ & G). injection G as <-. constructor.
    - apply bind_ok in H as (r' & H1 & H). injection H as <-. constructor. eapply mapM_forall; [|exact H1].
      intros a b G. apply bind_ok in G as (? & _ & G). apply bind_ok in G as (? & _ & G). apply bind_ok in G as (? & _ & G). injection G as <-. constructor.
    - destruct (Nat.eqb _ _); [|discriminate].
      apply bind_ok in H as (r' & H1 & H). injection H as <-. constructor. eapply mapM_forall; [|exact H1].
      intros a b G. apply bind_ok in G as (? & _ & G). apply bind_ok in G as (? & _ & G). apply bind_ok in G as (? & _ & G). injection G as <-. constructor.
  Qed.
  Lemma math_div_tidy c x y r : math_div c x y = Ok r -> tidy r.
  Proof.
    unfold math_div. destruct x; try apply math_op_tidy. destruct y; try apply math_op_tidy.
    intros H. apply bind_ok in H as (? & _ & H). injection H as <-. constructor.
  Qed.
  Lemma solve_tidy cast c k v r : tidy v -> solve cast c k v = Ok r -> tidy r.
  Proof.
    intros T. unfold solve. destruct (_ && _); [intros H; injection H as <-; exact T|].
    intros H. apply bind_ok in H as (d & _ & H). exact (math_div_tidy _ _ _ _ H).
  Qed.

  (** ** One level *)

  Definition bname (x : str) : Prop := In x B /\ internalb x = false /\ ctrl_nameb x = false /\ ~ In x secs.
  Record lvn (A : level) (N : list str) (d1 d2 : dict) : Prop := {
    l_eq : d2 = setab N (rm N d1);
    l_tidy : dtidy d2;
    l_nodup : NoDup N;
    l_names : forall x, In x N -> In x (hidden A) /\ bname x;
    l_vals : forall x, In x N -> (exists e, dget (KStr x) d1 = Some (VExpr e)) /\ dget (KStr x) (ddel (KStr x) d1) = None;
    l_ab : N <> [] -> dget AB d1 = Some (VNames N)
  }.
  Definition defd (A : level) (N : list str) (d1 : dict) : Prop :=
    forall x a, meaning x A = Some (Some a) -> In x N /\ dget (KStr x) d1 = Some (VExpr a).

  Lemma not_ab x : internalb x = false -> x <> $"__abbrevs".
  Proof. intros H ->. vm_compute in H. discriminate. Qed.
  Lemma not_AB x : internalb x = false -> KStr x <> AB.
  Proof. intros H E. apply (not_ab x H). unfold AB in E. congruence. Qed.
  Lemma ab_internal : internalb $"__abbrevs" = true. Proof. reflexivity. Qed.
  Lemma setab_get k N d : k <> AB -> dget k (setab N d) = dget k d.
  Proof. intros H. destruct N; [reflexivity|]. now apply dget_dset_other. Qed.

  Lemma lvn_get A N d1 d2 x : lvn A N d1 d2 -> ~ In x N -> internalb x = false -> dget (KStr x) d1 = dget (KStr x) d2.
  Proof.
    intros L H I. rewrite (l_eq _ _ _ _ L), setab_get; [symmetry; now apply dget_rm_out|].
    now apply not_AB.
  Qed.
  Lemma lvn_get_in A N d1 d2 x : lvn A N d1 d2 -> In x N -> dget (KStr x) d2 = None.
  Proof.
    intros L H. rewrite (l_eq _ _ _ _ L), setab_get; [now apply dget_rm_in|].
    apply not_AB. now destruct (l_names _ _ _ _ L _ H) as [_ (_ & Q & _)].
  Qed.
  Lemma setab_set N d x v : x <> $"__abbrevs" -> (N <> [] -> dget AB d <> None) -> setab N (dset (KStr x) v d) = dset (KStr x) v (setab N d).
  Proof.
    intros H P. destruct N as [|y r]; [reflexivity|]. cbn [setab]. symmetry. apply dset_comm; [unfold AB; congruence|].
    apply P. discriminate.
  Qed.
  Lemma ab_rm A N d1 d2 : lvn A N d1 d2 -> dget AB (rm N d1) = dget AB d1.
  Proof.
    intros L. apply dget_rm_out. intros H. destruct (l_names _ _ _ _ L _ H) as [_ (_ & Q & _)]. rewrite ab_internal in Q. discriminate.
  Qed.
  (** an entry set on both sides; also the entries of the interpreter *)
  Lemma lvn_set A N d1 d2 x v : lvn A N d1 d2 -> ~ In x N -> x <> $"__abbrevs" -> K x -> tidy v ->
    lvn A N (dset (KStr x) v d1) (dset (KStr x) v d2).
  Proof.
    intros L H I Kx T. pose proof (ab_rm _ _ _ _ L) as Q. destruct L as [E D ND NM VL LA]. constructor.
    - rewrite rm_dset_out by exact H. rewrite setab_set; [now rewrite E|exact I|]. intros NE. rewrite Q, (LA NE). discriminate.
    - now apply dtidy_set.
    - exact ND.
    - exact NM.
    - intros y J. assert (x <> y) by (intros ->; tauto). destruct (VL y J) as [[e V1] V2].
      rewrite dget_dset_other by congruence. rewrite dget_ddel_dset by assumption. eauto.
    - intros NE. rewrite dget_dset_other; [auto|unfold AB; congruence].
  Qed.
  Lemma defd_set A N d1 x v : defd A N d1 -> ~ In x N -> defd A N (dset (KStr x) v d1).
  Proof.
    intros D H y a M. destruct (D y a M) as [P Q]. split; [exact P|]. rewrite dget_dset_other; [exact Q|].
    intros E. injection E as ->. tauto.
  Qed.
  Lemma lvn_weaker A A' N d1 d2 : weaker A A' -> lvn A N d1 d2 -> lvn A' N d1 d2.
  Proof.
    intros [W _] L. destruct L as [E D ND NM VL LA]. constructor; auto.
    intros x J. destruct (NM x J). auto.
  Qed.
  Lemma defd_weaker A A' N d1 : weaker A A' -> defd A N d1 -> defd A' N d1.
  Proof. intros [_ W] D x a M. auto. Qed.
  Lemma lvn_same d : dtidy d -> lvn [] [] d d.
  Proof.
    intros T. constructor; try (intros x []); [cbn [setab]; now rewrite rm_nil|exact T|constructor|congruence].
  Qed.
  Lemma lvn_nil N d1 d2 : lvn [] N d1 d2 -> N = [] /\ d1 = d2 /\ dtidy d2.
  Proof.
    intros L. destruct N as [|x r].
    - split; [reflexivity|]. destruct L as [E D _ _ _ _]. cbn [setab] in E. rewrite rm_nil in E. auto.
    - destruct (l_names _ _ _ _ L x (or_introl eq_refl)) as [[] _].
  Qed.

  (** ** States *)

  Record rest (s1 s2 : pstate) : Prop := {
    r_loops : ps_loops s1 = ps_loops s2; r_look : ps_look s1 = ps_look s2; r_lines : ps_lines s1 = ps_lines s2;
    r_ofs : ps_ofs s1 = ps_ofs s2; r_opts : ps_opts s1 = ps_opts s2; r_log : ps_log s1 = ps_log s2 }.
  Definition wl (A : level) (d1 d2 : dict) : Prop :=
    exists N, lvn A N d1 d2 /\ dget AB d1 = Some (VNames N) /\ defd A N d1.
  Definition fname (A : level) (x : str) : Prop :=
    In x secs /\ ctrl_nameb x = false /\ ~ In x (hidden A) /\ internalb x = false /\ K x.
  Fixpoint frs (O : list level) (u1 u2 : list frame) : Prop :=
    match O, u1, u2 with
    | [], [], [] => True
    | A :: O', f1 :: v1, f2 :: v2 =>
        fr_name f1 = fr_name f2 /\ fr_idx f1 = fr_idx f2 /\ fname A (fr_name f1) /\ wl A (fr_dic f1) (fr_dic f2) /\ frs O' v1 v2
    | _, _, _ => False
    end.
  Definition nob (l : list (str * Z)) : Prop := forall x, In x B -> lget x l = None.
  (** [w]: the open dictionary has the entries of the interpreter; [z]: the interpreter may be
      skipping the rest of the recipe *)
  Definition rel (w z : bool) (A : level) (O : list level) (s1 s2 : pstate) : Prop :=
    rest s1 s2 /\ frs O (ps_up s1) (ps_up s2) /\ nob (ps_loops s1) /\
    exists N, lvn A N (ps_dic s1) (ps_dic s2) /\ (w = true -> dget AB (ps_dic s1) = Some (VNames N)) /\
      (defd A N (ps_dic s1) \/ z = true /\ ps_look s1 = Some 0).

  Lemma rel_weaker w z A A' O s1 s2 : weaker A A' -> rel w z A O s1 s2 -> rel w true A' O s1 s2.
  Proof.
    intros W (R & F & NB & N & L & Wk & D). split; [exact R|]. split; [exact F|]. split; [exact NB|]. exists N.
    split; [now apply lvn_weaker with A|]. split; [exact Wk|]. destruct D as [D|[_ D]]; [left; now apply defd_weaker with A|right; auto].
  Qed.
  Lemma rel_loose w z A O s1 s2 : rel w z A O s1 s2 -> rel w true A O s1 s2.
  Proof. apply rel_weaker, weaker_refl. Qed.

  (** after an exception: the names of abbreviations and sections are not looked at *)
  Definition wk (L : list str) (d1 d2 : dict) : Prop :=
    forall x, ~ In x L -> ~ In x secs -> internalb x = false ->
      dget (KStr x) d1 = dget (KStr x) d2 /\ forall v, dget (KStr x) d2 = Some v -> tidy v.
  Fixpoint fwk (Ls : list (list str)) (u1 u2 : list frame) : Prop :=
    match Ls, u1, u2 with
    | [], [], [] => True
    | L :: Ls', f1 :: v1, f2 :: v2 => fr_name f1 = fr_name f2 /\ In (fr_name f1) secs /\ wk L (fr_dic f1) (fr_dic f2) /\ fwk Ls' v1 v2
    | _, _, _ => False
    end.
  Inductive wstk (L : list str) (Ls : list (list str)) : list frame -> dict -> list frame -> dict -> Prop :=
  | w_here u1 d1 u2 d2 : wk L d1 d2 -> fwk Ls u1 u2 -> wstk L Ls u1 d1 u2 d2
  | w_more f1 u1 d1 f2 u2 d2 : fr_name f1 = fr_name f2 -> In (fr_name f1) secs ->
      wstk L Ls u1 (fr_dic f1) u2 (fr_dic f2) -> wstk L Ls (f1 :: u1) d1 (f2 :: u2) d2.
  Definition ew (L : list str) (Ls : list (list str)) (s1 s2 : pstate) : Prop :=
    rest s1 s2 /\ wstk L Ls (ps_up s1) (ps_dic s1) (ps_up s2) (ps_dic s2).

  Lemma lvn_wk A N d1 d2 : lvn A N d1 d2 -> wk (hidden A) d1 d2.
  Proof.
    intros L x H _ I. split.
    - apply (lvn_get A N); [exact L| |exact I]. intros J. destruct (l_names _ _ _ _ L _ J). tauto.
    - intros v G. exact (proj2 (dtidy_get _ _ _ (l_tidy _ _ _ _ L) G)).
  Qed.
  Lemma frs_fwk O : forall u1 u2, frs O u1 u2 -> fwk (map hidden O) u1 u2.
  Proof.
    induction O as [|A O IH]; intros [|f1 u1] [|f2 u2]; cbn [frs map fwk]; try tauto.
    intros (P & _ & F & (N & L & _) & H). split; [exact P|]. split; [exact (proj1 F)|]. split; [exact (lvn_wk _ _ _ _ L)|auto].
  Qed.
  Lemma wk_mono L L' d1 d2 : incl L L' -> wk L d1 d2 -> wk L' d1 d2.
  Proof. intros I H x P. apply H. auto. Qed.
  Lemma ew_mono L L' Ls s1 s2 : incl L L' -> ew L Ls s1 s2 -> ew L' Ls s1 s2.
  Proof.
    intros I [R W]. split; [exact R|]. induction W; [apply w_here; [eapply wk_mono; eassumption|assumption]|].
    now apply w_more.
  Qed.
  Lemma rel_ew w z A O L s1 s2 : incl (hidden A) L -> rel w z A O s1 s2 -> ew L (map hidden O) s1 s2.
  Proof.
    intros H (R & F & _ & N & Lv & _). split; [exact R|]. apply w_here; [|now apply frs_fwk].
    eapply wk_mono; [exact H|]. exact (lvn_wk _ _ _ _ Lv).
  Qed.
  Lemma ew_down L L' Ls s1 s2 : ew L (L' :: Ls) s1 s2 -> ew L' Ls s1 s2.
  Proof.
    intros [R W]. split; [exact R|]. remember (L' :: Ls) as LL. induction W; subst.
    - destruct u1 as [|f1 u1], u2 as [|f2 u2]; cbn [fwk] in *; try tauto.
      match goal with H : _ /\ _ |- _ => destruct H as (P & Q & W & F) end. apply w_more; [exact P|exact Q|]. now apply w_here.
    - apply w_more; auto.
  Qed.

  (** ** Lookups *)

  Lemma outer_wk L f1 f2 d1 d2 : fr_name f1 = fr_name f2 -> In (fr_name f1) secs -> wk L (fr_dic f1) (fr_dic f2) ->
    wk L (outer f1 d1) (outer f2 d2).
  Proof.
    intros E S W x P Q I. rewrite !outer_other by (intros X; injection X as ->; congruence). now apply W.
  Qed.
  Lemma find_up_wk Ls : forall L d1 d2 u1 u2 x, wk L d1 d2 -> fwk Ls u1 u2 -> ~ In x L -> ~ In x (concat Ls) -> ~ In x secs ->
    internalb x = false ->
    find_up x d1 u1 = find_up x d2 u2 /\ forall v, find_up x d2 u2 = Some v -> tidy v.
  Proof.
    induction Ls as [|L' Ls IH]; intros L d1 d2 u1 u2 x W F HL HC HS I.
    - destruct u1, u2; cbn [fwk] in F; try tauto. cbn [find_up]. destruct (W x HL HS I) as [E T]. rewrite E.
      split; [reflexivity|]. intros v. destruct (dget (KStr x) d2) eqn:Q; [|discriminate]. intros H. injection H as <-. now apply T.
    - destruct u1 as [|f1 u1], u2 as [|f2 u2]; cbn [fwk] in F; try tauto. destruct F as (P & Q & W' & F).
      cbn [find_up]. destruct (W x HL HS I) as [E T]. rewrite E. destruct (dget (KStr x) d2) eqn:G.
      + split; [reflexivity|]. intros v0 H. injection H as <-. now apply T.
      + cbn [concat] in HC. rewrite in_app_iff in HC. apply (IH L'); try tauto. now apply outer_wk.
  Qed.
  Lemma unwind_stop n u d : (length u <= n)%nat -> unwind n u d = (u, d).
  Proof. intros H. destruct u; cbn [unwind]; (destruct (Nat.leb _ _) eqn:E; [reflexivity|apply Nat.leb_gt in E; lia]). Qed.
  Lemma unwind_wk L Ls : forall u1 d1 u2 d2, wstk L Ls u1 d1 u2 d2 ->
    wk L (snd (unwind (length Ls) u1 d1)) (snd (unwind (length Ls) u2 d2)) /\
    fwk Ls (fst (unwind (length Ls) u1 d1)) (fst (unwind (length Ls) u2 d2)).
  Proof.
    assert (LF : forall Ls u1 u2, fwk Ls u1 u2 -> length u1 = length Ls /\ length u2 = length Ls).
    { induction Ls0 as [|l r IH]; intros [|f1 u1] [|f2 u2]; cbn [fwk length]; try tauto. intros (_ & _ & _ & F). destruct (IH _ _ F). lia. }
    assert (LW : forall u1 d1 u2 d2, wstk L Ls u1 d1 u2 d2 -> (length Ls <= length u1)%nat /\ (length Ls <= length u2)%nat).
    { induction 1; [match goal with F : fwk _ _ _ |- _ => destruct (LF _ _ _ F) end; lia|cbn [length]; lia]. }
    assert (G : forall n u1 d1 u2 d2, length u1 = n -> wstk L Ls u1 d1 u2 d2 ->
      wk L (snd (unwind (length Ls) u1 d1)) (snd (unwind (length Ls) u2 d2)) /\
      fwk Ls (fst (unwind (length Ls) u1 d1)) (fst (unwind (length Ls) u2 d2))).
    2:{ intros u1 d1 u2 d2. now apply (G (length u1)). }
    induction n as [|n IH]; intros u1 d1 u2 d2 E W.
    - inversion W as [? ? ? ? W' F|]; subst; [|discriminate]. destruct (LF _ _ _ F) as [P Q].
      destruct u1; [|discriminate]. destruct u2; [|cbn [length] in *; lia]. destruct Ls; [|discriminate]. cbn. auto.
    - inversion W as [? ? ? ? W' F|? ? ? ? ? ? P Q W']; subst.
      + destruct (LF _ _ _ F) as [P Q]. rewrite !unwind_stop by lia. cbn [fst snd]. auto.
      + destruct (LW _ _ _ _ W') as [G1 G2]. cbn [unwind length].
        replace (Nat.leb (S (length u0)) (length Ls)) with false by (symmetry; apply Nat.leb_gt; lia).
        replace (Nat.leb (S (length u3)) (length Ls)) with false by (symmetry; apply Nat.leb_gt; lia).
        apply IH; [cbn [length] in E; lia|]. clear - W' P Q.
        remember (fr_dic f1) as e1. remember (fr_dic f2) as e2. destruct W' as [v1 g1 v2 g2 W F|h1 v1 g1 h2 v2 g2 P' Q' W].
        * apply w_here; [|exact F]. apply outer_wk; subst; auto.
        * apply w_more; auto.
  Qed.

  (** ** Scopes *)

  Lemma raw_case (lu : bool) sc1 sc2 x ix : sc_loops sc1 = sc_loops sc2 -> dget (KStr x) (sc_dic sc1) = dget (KStr x) (sc_dic sc2) ->
    (if lu then find_up x (sc_dic sc1) (sc_up sc1) else dget (KStr x) (sc_dic sc1)) =
    (if lu then find_up x (sc_dic sc2) (sc_up sc2) else dget (KStr x) (sc_dic sc2)) ->
    (forall v, (if lu then find_up x (sc_dic sc2) (sc_up sc2) else dget (KStr x) (sc_dic sc2)) = Some v -> tidy v) ->
    get_raw sc1 lu x ix = get_raw sc2 lu x ix /\ forall a, get_raw sc1 lu x ix <> Ok (VExpr a).
  Proof.
    intros E1 E2 E3 T.
    assert (G : get_raw sc1 lu x ix = get_raw sc2 lu x ix) by (unfold get_raw; rewrite E1, E3, E2; reflexivity).
    split; [exact G|]. intros a H. rewrite G in H. unfold get_raw in H.
    destruct (lget x (sc_loops sc2)), (dget (KStr x) (sc_dic sc2)) eqn:D; try discriminate.
    - destruct (if lu then find_up x (sc_dic sc2) (sc_up sc2) else Some v) as [w|]; [|discriminate].
      specialize (T w eq_refl). destruct ix.
      + injection H as ->. inversion T.
      + apply bind_ok in H as (ids & _ & H). pose proof (tidy_array_get _ _ _ T H) as T'. inversion T'.
    - destruct (if lu then find_up x (sc_dic sc2) (sc_up sc2) else None) as [w|]; [|discriminate].
      specialize (T w eq_refl). destruct ix.
      + injection H as ->. inversion T.
      + apply bind_ok in H as (ids & _ & H). pose proof (tidy_array_get _ _ _ T H) as T'. inversion T'.
  Qed.

  Lemma rel_sees w A O s1 s2 : rel w false A O s1 s2 ->
    (forall bad, sees A bad false (scope_of s1) (scope_of s2)) /\ sees A (outside secs O) true (scope_of s1) (scope_of s2).
  Proof.
    intros (R & F & NB & N & L & _ & D). destruct D as [D|[D _]]; [|discriminate].
    assert (HN : forall x, ~ In x (hidden A) -> ~ In x N).
    { intros x H J. destruct (l_names _ _ _ _ L _ J). tauto. }
    assert (AB' : forall lu x a, meaning x A = Some (Some a) -> get_raw (scope_of s1) lu x [] = Ok (VExpr a)).
    { intros lu x a M. destruct (D x a M) as [J V]. destruct (l_names _ _ _ _ L _ J) as [_ (HB & _)].
      unfold get_raw. cbn [sc_loops sc_dic sc_up scope_of]. rewrite (NB x HB). rewrite V.
      destruct lu; [|reflexivity]. destruct (ps_up s1); cbn [find_up]; rewrite V; reflexivity. }
    split.
    - intros bad. split; [|exact (AB' false)]. intros x ix H _ I. apply raw_case; cbn [sc_loops sc_dic sc_up scope_of].
      + exact (r_loops _ _ R).
      + apply (lvn_get A N); auto.
      + apply (lvn_get A N); auto.
      + intros v G. exact (proj2 (dtidy_get _ _ _ (l_tidy _ _ _ _ L) G)).
    - split; [|exact (AB' true)]. intros x ix H HO I. unfold outside in HO. rewrite in_app_iff in HO.
      destruct (find_up_wk (map hidden O) (hidden A) (ps_dic s1) (ps_dic s2) (ps_up s1) (ps_up s2) x) as [E T];
        [exact (lvn_wk _ _ _ _ L)|now apply frs_fwk|exact H|rewrite <- flat_map_concat_map; tauto|tauto|exact I|].
      apply raw_case; cbn [sc_loops sc_dic sc_up scope_of]; auto.
      + exact (r_loops _ _ R).
      + apply (lvn_get A N); auto.
  Qed.
  (** after a lookahead *)
  Lemma wk_sees L O sc1 sc2 : sc_loops sc1 = sc_loops sc2 -> wk L (sc_dic sc1) (sc_dic sc2) ->
    fwk (map hidden O) (sc_up sc1) (sc_up sc2) -> sees (forget L []) (outside secs O) true sc1 sc2.
  Proof.
    intros E W F. split.
    - intros x ix H HO I. rewrite hidden_forget in H. unfold outside in HO. rewrite in_app_iff in HO.
      destruct (find_up_wk (map hidden O) L (sc_dic sc1) (sc_dic sc2) (sc_up sc1) (sc_up sc2) x) as [G T];
        [exact W|exact F|tauto|rewrite <- flat_map_concat_map; tauto|tauto|exact I|].
      apply raw_case; auto. apply W; tauto.
    - intros x a. rewrite meaning_forget. cbn [meaning]. destruct (among x L); discriminate.
  Qed.

  Lemma ctrl_wk O : forall u1 u2 d1 d2, frs O u1 u2 ->
    (forall x, ctrl_nameb x = true -> dget (KStr x) d1 = dget (KStr x) d2) ->
    forall x, ctrl_nameb x = true -> dget (KStr x) (ctrl_dic d1 u1) = dget (KStr x) (ctrl_dic d2 u2).
  Proof.
    assert (LC : forall A N d1 d2, lvn A N d1 d2 -> forall x, ctrl_nameb x = true -> dget (KStr x) d1 = dget (KStr x) d2).
    { intros A N d1 d2 L x C. apply (lvn_get A N); [exact L| |].
      - intros J. destruct (l_names _ _ _ _ L _ J) as [_ (_ & _ & Q & _)]. congruence.
      - unfold ctrl_nameb in C. apply orb_true_iff in C. destruct C as [C|C]; [apply orb_true_iff in C; destruct C as [C|C]|];
          apply str_eqb_eq in C; subst x; reflexivity. }
    induction O as [|A O IH]; intros [|f1 u1] [|f2 u2] d1 d2; cbn [frs]; try tauto; intros F H x C.
    - cbn [ctrl_dic]. destruct (dget (KStr $"MAT") d1), (dget (KStr $"MAT") d2); auto.
    - destruct F as (P & Q & S & (N & L & _) & F). cbn [ctrl_dic]. rewrite (H $"MAT" eq_refl).
      destruct (dget (KStr $"MAT") d2); [auto|]. apply IH; [exact F| |exact C]. intros y Cy.
      destruct S as (_ & S & _). rewrite !outer_other; [now apply (LC A N)| |]; intros X; injection X as ->; congruence.
  Qed.
  Lemma rel_ctrl w z A O s1 s2 x : rel w z A O s1 s2 -> ctrl_nameb x = true ->
    dget (KStr x) (ctrl_dic (ps_dic s1) (ps_up s1)) = dget (KStr x) (ctrl_dic (ps_dic s2) (ps_up s2)).
  Proof.
    intros (R & F & _ & N & L & _). apply (ctrl_wk O); [exact F|]. intros y C. apply (lvn_get A N); [exact L| |].
    - intros J. destruct (l_names _ _ _ _ L _ J) as [_ (_ & _ & Q & _)]. congruence.
    - unfold ctrl_nameb in C. apply orb_true_iff in C. destruct C as [C|C]; [apply orb_true_iff in C; destruct C as [C|C]|];
        apply str_eqb_eq in C; subst y; reflexivity.
  Qed.
End Relation.
