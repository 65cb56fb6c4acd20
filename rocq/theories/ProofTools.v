(** compare_objects (C41). *)
From Coq Require Import Ascii String ZArith Bool Lia List Sorted Permutation.
From Coq Require Import Floats.SpecFloat.
From Verif Require Import PyBase PyFloat ModelFortran ModelRecords ModelTape ModelInterp ModelPath ModelTools SpecTape SpecInterp SpecPath SpecTools.
From Verif Require Import ProofPyBase ProofInterpSec.
Import ListNotations.
Open Scope Z_scope.

(** ** Sorting *)

Lemma insert_perm {A} leb (x : A) l : Permutation (insert_by leb x l) (x :: l).
Proof.
  induction l as [|y l IH]; cbn [insert_by]; [reflexivity|]. destruct (leb x y); [reflexivity|].
  rewrite IH. apply perm_swap.
Qed.
Lemma sort_perm {A} leb (l : list A) : Permutation (sort_by leb l) l.
Proof. induction l as [|x l IH]; cbn [sort_by fold_right]; [reflexivity|]. rewrite insert_perm. apply perm_skip. exact IH. Qed.

Lemma sorted_keys_in l k : In k (sorted_keys l) <-> In k l.
Proof.
  unfold sorted_keys. rewrite in_app_iff, !in_map_iff.
  assert (S : forall s, In s (sort_by str_leb (str_keys l)) <-> In (KStr s) l).
  { intros s. split; intros H.
    - apply (Permutation_in s (sort_perm str_leb (str_keys l))) in H. unfold str_keys in H. apply in_flat_map in H as ([z|t] & I & J); [destruct J|]. destruct J as [->|[]]. exact I.
    - apply (Permutation_in s (Permutation_sym (sort_perm str_leb (str_keys l)))). unfold str_keys. apply in_flat_map. exists (KStr s). split; [exact H|left; reflexivity]. }
  assert (N : forall z, In z (sort_by Z.leb (num_keys l)) <-> In (KInt z) l).
  { intros s. split; intros H.
    - apply (Permutation_in s (sort_perm Z.leb (num_keys l))) in H. unfold num_keys in H. apply in_flat_map in H as ([z|t] & I & J); [|destruct J]. destruct J as [->|[]]. exact I.
    - apply (Permutation_in s (Permutation_sym (sort_perm Z.leb (num_keys l)))). unfold num_keys. apply in_flat_map. exists (KInt s). split; [exact H|left; reflexivity]. }
  split.
  - intros [(s & <- & H)|(z & <- & H)]; [apply S|apply N]; exact H.
  - intros H. destruct k as [z|s]; [right; exists z|left; exists s]; (split; [reflexivity|]); [apply N|apply S]; exact H.
Qed.

(** ** C41 *)

(** the outcome of a comparison that decides [P] *)
Definition decides (o : cmpopts) (P : Prop) (m : C bool) : Prop := forall log,
  (P /\ m log = (Ok true, log)) \/
  (~ P /\ if c_fail o then exists k, m log = (Err (diff_exn k), log) else exists ds, ds <> [] /\ m log = (Ok false, log ++ ds)).
(** the same for a computation whose value is found_diff, starting from [found] *)
Definition finds (o : cmpopts) (P : Prop) (m : C bool) : Prop := forall log,
  (P /\ m log = (Ok false, log)) \/
  (~ P /\ if c_fail o then exists k, m log = (Err (diff_exn k), log) else exists ds, ds <> [] /\ m log = (Ok true, log ++ ds)).

Lemma decides_iff o P Q m : (P <-> Q) -> decides o P m -> decides o Q m.
Proof. intros E D log. destruct (D log) as [[A B]|[A B]]; [left|right]; split; tauto. Qed.
Lemma finds_iff o P Q m : (P <-> Q) -> finds o P m -> finds o Q m.
Proof. intros E D log. destruct (D log) as [[A B]|[A B]]; [left|right]; split; tauto. Qed.
Lemma finds_decides o P m : finds o P m -> decides o P (cbind m (fun found => cret (negb found))).
Proof.
  intros F log. destruct (F log) as [[A B]|[A B]]; [left|right]; (split; [exact A|]); unfold cbind.
  - rewrite B. reflexivity.
  - destruct (c_fail o); [destruct B as [k B]; exists k; rewrite B; reflexivity|].
    destruct B as (ds & N & B). exists ds. split; [exact N|]. rewrite B. reflexivity.
Qed.
Lemma treat_finds o path k : finds o False (treat_diff o path k).
Proof.
  intros log. right. split; [auto|]. unfold treat_diff. destruct (c_fail o); [exists k; reflexivity|].
  exists [(path, k)]. split; [discriminate|reflexivity].
Qed.
Lemma cret_finds o (P : Prop) : P -> finds o P (cret false).
Proof. intros H log. left. auto. Qed.
Lemma cwhen_finds o b path k P : (P <-> b = false) -> finds o P (cwhen b (treat_diff o path k) false).
Proof.
  intros E. destruct b; cbn [cwhen].
  - refine (finds_iff _ False P _ _ (treat_finds o path k)). split; [intros []|]. intros H. apply E in H. discriminate.
  - apply cret_finds. apply E. reflexivity.
Qed.

(** continuing: found_diff stays true *)
Definition continues (o : cmpopts) (Q : Prop) (f : bool -> C bool) : Prop :=
  finds o Q (f false) /\
  (c_fail o = false -> forall log, exists ds, f true log = (Ok true, log ++ ds)).
Lemma bind_finds o P Q m f : finds o P m -> continues o Q f -> finds o (P /\ Q) (cbind m f).
Proof.
  intros F [G H] log. unfold cbind. destruct (F log) as [[A ->]|[A B]].
  - destruct (G log) as [[A2 B2]|[A2 B2]]; [left|right]; (split; [tauto|exact B2]).
  - right. split; [tauto|]. destruct (c_fail o) eqn:E; [destruct B as [k ->]; exists k; reflexivity|].
    destruct B as (ds & N & ->). destruct (H eq_refl (log ++ ds)) as (ds2 & ->). exists (ds ++ ds2). rewrite app_assoc. split; [|reflexivity].
    destruct ds; [contradiction|discriminate].
Qed.
Lemma bind_continues o P Q m f : continues o P m -> continues o Q f -> continues o (P /\ Q) (fun b => cbind (m b) f).
Proof.
  intros [F1 F2] G. split; [exact (bind_finds o P Q _ f F1 G)|]. intros E log. unfold cbind. destruct (F2 E log) as (ds & ->).
  destruct (proj2 G E (log ++ ds)) as (ds2 & ->). exists (ds ++ ds2). rewrite app_assoc. reflexivity.
Qed.
Lemma cwhen_continues o b path k P : (P <-> b = false) -> continues o P (cwhen b (treat_diff o path k)).
Proof.
  intros E. split; [apply cwhen_finds; exact E|]. intros F log. destruct b; cbn [cwhen].
  - unfold treat_diff. rewrite F. eexists. reflexivity.
  - exists []. rewrite app_nil_r. reflexivity.
Qed.
(** one element of a loop *)
Lemma loop_continues o P Q m f : decides o P m -> continues o Q f -> continues o (P /\ Q) (fun found => cbind m (fun ret => f (found || negb ret))).
Proof.
  intros D [G H]. split.
  - intros log. unfold cbind. destruct (D log) as [[A ->]|[A B]]; cbn [orb negb].
    + destruct (G log) as [[A2 B2]|[A2 B2]]; [left|right]; (split; [tauto|exact B2]).
    + right. split; [tauto|]. destruct (c_fail o) eqn:E; [destruct B as [k ->]; exists k; reflexivity|].
      destruct B as (ds & N & ->). destruct (H eq_refl (log ++ ds)) as (ds2 & X). cbn [orb negb]. rewrite X. exists (ds ++ ds2). rewrite app_assoc. split; [|reflexivity].
      destruct ds; [contradiction|discriminate].
  - intros E log. unfold cbind. destruct (D log) as [[A ->]|[A B]]; cbn [orb].
    + exact (H E log).
    + rewrite E in B. destruct B as (ds & N & ->). destruct (H E (log ++ ds)) as (ds2 & ->). exists (ds ++ ds2). rewrite app_assoc. reflexivity.
Qed.
Lemma continues_iff o P Q f : (P <-> Q) -> continues o P f -> continues o Q f.
Proof. intros E [A B]. split; [exact (finds_iff o P Q _ E A)|exact B]. Qed.
Lemma cret_continues o (P : Prop) : P -> continues o P cret.
Proof. intros H. split; [apply cret_finds; exact H|]. intros _ log. exists []. rewrite app_nil_r. reflexivity. Qed.

Lemma elements_continue o l1 : Forall (fun a => forall path b, decides o (same o a b) (compare_at o a path b)) l1 ->
  forall l2 path i, length l1 = length l2 -> continues o (Forall2 (same o) l1 l2) (cmp_elements (map (compare_at o) l1) l2 path i).
Proof.
  induction 1 as [|a l1 H F IH]; intros [|b l2] path i L; try discriminate; cbn [map cmp_elements].
  - apply cret_continues. constructor.
  - refine (continues_iff o _ _ _ _ (loop_continues o (same o a b) _ _ _ (H _ b) (IH l2 path (i + 1) _))); [|cbn in L; lia].
    split; [intros [A B]; constructor; assumption|intros X; inversion X; subst; auto].
Qed.
Lemma elements_total o l1 : Forall (fun a => forall path b, decides o (same o a b) (compare_at o a path b)) l1 ->
  forall l2 path i, c_fail o = false -> forall log, exists ds, cmp_elements (map (compare_at o) l1) l2 path i true log = (Ok true, log ++ ds).
Proof.
  induction 1 as [|a l1 H F IH]; intros [|b l2] path i E log; cbn [map cmp_elements]; try (exists []; rewrite app_nil_r; reflexivity).
  unfold cbind. destruct (H (path ++ $"[" ++ str_of_Z i ++ $"]") b log) as [[A ->]|[A B]]; cbn [orb].
  - exact (IH l2 path (i + 1) E log).
  - rewrite E in B. destruct B as (ds & N & ->). destruct (IH l2 path (i + 1) E (log ++ ds)) as (ds2 & ->). exists (ds ++ ds2). rewrite app_assoc. reflexivity.
Qed.

Lemma kget_map o d k : kget k (map (fun kv => (fst kv, compare_at o (snd kv))) d) = match dget k d with Some x => Some (compare_at o x) | None => None end.
Proof. induction d as [|[k' v] d IH]; [reflexivity|]. cbn [map kget dget fst snd]. destruct (key_eqb k k'); [reflexivity|exact IH]. Qed.
Lemma keys_continue o d1 d2 : (forall k a, dget k d1 = Some a -> forall path b, decides o (same o a b) (compare_at o a path b)) ->
  forall keys path, continues o (forall k x y, In k keys -> dget k d1 = Some x -> dget k d2 = Some y -> same o x y)
    (cmp_keys (map (fun kv => (fst kv, compare_at o (snd kv))) d1) d2 path keys).
Proof.
  intros H. induction keys as [|k keys IH]; intros path; cbn [cmp_keys].
  - apply cret_continues. intros k x y [].
  - rewrite kget_map. destruct (dget k d1) as [x|] eqn:G1; [destruct (dget k d2) as [y|] eqn:G2|].
    + refine (continues_iff o _ _ _ _ (loop_continues o (same o x y) _ _ _ (H k x G1 _ y) (IH path))). split.
      * intros [A B] k' x' y' [<-|I] X Y; [congruence|]. exact (B k' x' y' I X Y).
      * intros A. split; [apply (A k); auto; left; reflexivity|]. intros k' x' y' I. apply A. right. exact I.
    + refine (continues_iff o _ _ _ _ (IH path)). split.
      * intros B k' x' y' [<-|I] X Y; [congruence|]. exact (B k' x' y' I X Y).
      * intros A k' x' y' I. apply A. right. exact I.
    + refine (continues_iff o _ _ _ _ (IH path)). split.
      * intros B k' x' y' [<-|I] X Y; [congruence|]. exact (B k' x' y' I X Y).
      * intros A k' x' y' I. apply A. right. exact I.
Qed.

Lemma dget_keys k (d : dict) : In k (map fst d) <-> exists x, dget k d = Some x.
Proof.
  induction d as [|[k' v] d IH]; cbn [map fst In dget]; [split; [intros []|intros [x H]; discriminate]|]. destruct (key_dec k k') as [->|N].
  - rewrite key_eqb_refl. split; [eauto|auto].
  - rewrite key_eqb_neq by exact N. rewrite IH. split; [intros [H|H]; [congruence|exact H]|auto].
Qed.
Lemma dget_in k (d : dict) v : dget k d = Some v -> In (k, v) d.
Proof.
  induction d as [|[k' v'] d IH]; cbn [dget]; [discriminate|]. destruct (key_dec k k') as [->|N].
  - rewrite key_eqb_refl. intros H. injection H as ->. left. reflexivity.
  - rewrite key_eqb_neq by exact N. intros H. right. auto.
Qed.
Lemma has_key_iff k d : has_key k d = true <-> exists x, dget k d = Some x.
Proof. unfold has_key. destruct (dget k d); split; eauto; try discriminate. intros [x H]; discriminate. Qed.

Lemma none_left d1 d2 : Nat.eqb (length (filter (fun k => negb (has_key k d2)) (map fst d1))) 0 = true <->
  (forall k, (exists x, dget k d1 = Some x) -> exists y, dget k d2 = Some y).
Proof.
  rewrite Nat.eqb_eq. split.
  - intros L k X. apply dget_keys in X. apply has_key_iff. destruct (has_key k d2) eqn:E; [reflexivity|]. exfalso.
    assert (I : In k (filter (fun k => negb (has_key k d2)) (map fst d1))) by (apply filter_In; rewrite E; auto).
    destruct (filter _ _); [destruct I|discriminate].
  - intros H. destruct (filter _ _) as [|k r] eqn:E; [reflexivity|]. exfalso. assert (I : In k (k :: r)) by (left; reflexivity). rewrite <- E in I.
    apply filter_In in I as [I N]. apply dget_keys in I. apply H in I. apply has_key_iff in I. rewrite I in N. discriminate.
Qed.

Lemma type_mismatch o a b : type_eqb (type_of a) (type_of b) = false -> ~ same o a b.
Proof. intros H S. inversion S as [z|x y fx fy X Y|s t|  |l m|d e]; subst; try discriminate H. destruct X, Y; discriminate H. Qed.

Lemma Forall2_len {A B} (R : A -> B -> Prop) l m : Forall2 R l m -> length l = length m.
Proof. induction 1; cbn [length]; congruence. Qed.
Fixpoint compare_decides (o : cmpopts) (a : val) {struct a} : forall path b, decides o (same o a b) (compare_at o a path b).
Proof.
  intros path b. destruct a as [[z|f|f fs]|s|l|d| | | |].
  all: cbn [compare_at]; apply finds_decides; destruct (negb (type_eqb _ _)) eqn:T;
    [apply negb_true_iff in T; refine (finds_iff o False _ _ _ (treat_finds o path DType)); split; [intros []|intros S; exact (type_mismatch o _ _ T S)]|];
    apply negb_false_iff in T; destruct b as [[y|g|g gs]|t|l2|d2| | | |]; try discriminate T.
  - apply cwhen_finds. rewrite negb_false_iff. cbn [smart_is_equal]. rewrite Z.eqb_eq.
    split; [intros S; inversion S; [reflexivity|]|intros ->; constructor]. match goal with H : is_float (NInt _) _ |- _ => inversion H end.
  - apply cwhen_finds. rewrite negb_false_iff. cbn [smart_is_equal float_of].
    split; [intros S; inversion S as [|? ? ? ? X Y Q| | | |]; subst; inversion X; inversion Y; subst; exact Q|intros Q; econstructor; [constructor|constructor|exact Q]].
  - apply cwhen_finds. rewrite negb_false_iff. cbn [smart_is_equal float_of].
    split; [intros S; inversion S as [|? ? ? ? X Y Q| | | |]; subst; inversion X; inversion Y; subst; exact Q|intros Q; econstructor; [constructor|constructor|exact Q]].
  - apply cwhen_finds. rewrite negb_false_iff. cbn [smart_is_equal float_of].
    split; [intros S; inversion S as [|? ? ? ? X Y Q| | | |]; subst; inversion X; inversion Y; subst; exact Q|intros Q; econstructor; [constructor|constructor|exact Q]].
  - apply cwhen_finds. rewrite negb_false_iff. cbn [smart_is_equal float_of].
    split; [intros S; inversion S as [|? ? ? ? X Y Q| | | |]; subst; inversion X; inversion Y; subst; exact Q|intros Q; econstructor; [constructor|constructor|exact Q]].
  - assert (E : same o (VStr s) (VStr t) <-> same_text o s t) by (split; [intros S; inversion S; assumption|apply sm_str]).
    unfold same_text in E. cbv zeta. destruct (c_strlen o); apply cwhen_finds; rewrite negb_false_iff, E; [rewrite Nat.eqb_eq; tauto|rewrite str_eqb_eq; tauto].
  - assert (F : Forall (fun a => forall path b, decides o (same o a b) (compare_at o a path b)) l).
    { clear T l2. induction l as [|x l IH]; constructor; [exact (compare_decides o x)|exact IH]. }
    assert (E : same o (VList l) (VList l2) <-> Forall2 (same o) l l2) by (split; [intros S; inversion S; assumption|apply sm_list]).
    destruct (Nat.eqb (length l) (length l2)) eqn:L.
    + cbn [negb cwhen]. apply Nat.eqb_eq in L. refine (finds_iff o (True /\ Forall2 (same o) l l2) _ _ _ _); [tauto|].
      apply bind_finds; [apply cret_finds; exact I|]. apply elements_continue; assumption.
    + cbn [negb cwhen]. refine (finds_iff o False _ _ _ _).
      { split; [intros []|]. intros S. apply E in S. apply Forall2_len in S. rewrite S in L. rewrite Nat.eqb_refl in L. discriminate. }
      intros log. right. split; [auto|]. unfold cbind, treat_diff. destruct (c_fail o) eqn:CF; [exists DLen; reflexivity|].
      destruct (elements_total o l F l2 path 0 CF (log ++ [(path, DLen)])) as (ds & ->). exists ((path, DLen) :: ds). split; [discriminate|]. rewrite <- app_assoc. reflexivity.
  - assert (F : forall k x, dget k d = Some x -> forall path b, decides o (same o x b) (compare_at o x path b)).
    { clear T d2. induction d as [|[k' x] d IH]; intros k y G; [discriminate|]. cbn [dget] in G. destruct (key_eqb k k'); [|exact (IH k y G)].
      injection G as <-. exact (compare_decides o x). }
    cbv zeta. refine (finds_iff o _ _ _ _ (bind_finds o _ _ _ _ (cwhen_finds o _ _ _ (forall k, (exists x, dget k d = Some x) -> exists y, dget k d2 = Some y) _)
       (bind_continues o _ _ _ _ (cwhen_continues o _ _ _ (forall k, (exists x, dget k d2 = Some x) -> exists y, dget k d = Some y) _) (keys_continue o d d2 F _ path)))).
    + split.
      * intros (A & B & Q). apply sm_dict; [intros k; split; [apply A|apply B]|]. intros k x y X Y. refine (Q k x y _ X Y).
        apply sorted_keys_in, filter_In. split; [apply dget_keys; eauto|]. apply has_key_iff. eauto.
      * intros S. inversion S as [| | | | |? ? A B]; subst. split; [intros k; apply A|]. split; [intros k; apply A|]. intros k x y _. apply B.
    + rewrite negb_false_iff, none_left. tauto.
    + rewrite negb_false_iff, none_left. tauto.
  - apply cret_finds. constructor.
Defined.

Theorem compare_log o a b : c_fail o = false ->
  exists r ds, compare_objects o a b = (Ok r, ds) /\ (r = true <-> same o a b) /\ (ds = [] <-> same o a b).
Proof.
  intros F. unfold compare_objects. destruct (compare_decides o a [] b []) as [[A B]|[A B]].
  - exists true, []. rewrite B. tauto.
  - rewrite F in B. destruct B as (ds & N & B). exists false, ds. rewrite B. split; [reflexivity|]. split; (split; [intros H; congruence|intros H; contradiction]).
Qed.
Theorem compare_fail o a b : c_fail o = true ->
  (same o a b -> compare_objects o a b = (Ok true, [])) /\
  (~ same o a b -> exists e, compare_objects o a b = (Err e, []) /\ (e = TypeError \/ e = IndexError \/ e = ValueError)).
Proof.
  intros F. unfold compare_objects. destruct (compare_decides o a [] b []) as [[A B]|[A B]]; (split; [intros H|intros H]); try contradiction.
  - exact B.
  - rewrite F in B. destruct B as (k & B). exists (diff_exn k). split; [exact B|]. destruct k; auto.
Qed.

(** *** Floats are close to themselves *)

Lemma shr_1_pos r : 0 <= shr_m r -> 0 <= shr_m (shr_1 r).
Proof. destruct r as [m s t]. unfold shr_1. cbn [shr_m]. destruct m as [|p|p]; cbn; [lia| |lia]. destruct p; cbn; lia. Qed.
Lemma iter_pos_inv {A} (P : A -> Prop) (f : A -> A) : (forall x, P x -> P (f x)) -> forall n x, P x -> P (iter_pos f n x).
Proof. intros F. induction n as [n IH|n IH|]; intros x H; cbn [iter_pos]; auto. Qed.
Lemma shr_pos r e n : 0 <= shr_m r -> 0 <= shr_m (fst (shr r e n)).
Proof.
  intros H. destruct n as [|p|p]; cbn [shr fst]; try exact H. apply (iter_pos_inv (fun r => 0 <= shr_m r)); [apply shr_1_pos|exact H].
Qed.
Lemma shr_fexp_pos prec emax m e l : 0 <= m -> 0 <= shr_m (fst (shr_fexp prec emax m e l)).
Proof. intros H. unfold shr_fexp. apply shr_pos. destruct l as [|[]]; exact H. Qed.
Lemma rne_pos m l : 0 <= m -> 0 <= round_nearest_even m l.
Proof. intros H. unfold round_nearest_even. destruct l as [|[]]; try lia. destruct (Z.even m); lia. Qed.

Definition nonneg_or_inf (f : spec_float) : Prop := nonneg_float f \/ f = S754_infinity false.
Lemma round_aux_nonneg prec emax m e l : 0 <= m -> nonneg_or_inf (binary_round_aux prec emax false m e l).
Proof.
  intros H. unfold binary_round_aux. destruct (shr_fexp prec emax m e l) as [r1 e1] eqn:E1.
  pose proof (shr_fexp_pos prec emax m e l H) as P1. rewrite E1 in P1. cbn [fst] in P1.
  destruct (shr_fexp prec emax (round_nearest_even (shr_m r1) (loc_of_shr_record r1)) e1 loc_Exact) as [r2 e2] eqn:E2.
  pose proof (shr_fexp_pos prec emax _ e1 loc_Exact (rne_pos (shr_m r1) (loc_of_shr_record r1) P1)) as P2. rewrite E2 in P2. cbn [fst] in P2.
  destruct (shr_m r2) as [|p|p]; [left; left; reflexivity| |lia]. destruct (e2 <=? emax - prec); [left; right; eauto|right; reflexivity].
Qed.
Lemma round_nonneg prec emax m e : nonneg_or_inf (binary_round prec emax false m e).
Proof. unfold binary_round. destruct (shl_align m e (fexp prec emax (Z.pos (digits2_pos m) + e))) as [mz ez]. apply round_aux_nonneg. lia. Qed.
Lemma normalize_nonneg prec emax m e : 0 <= m -> nonneg_or_inf (binary_normalize prec emax m e false).
Proof. intros H. destruct m as [|p|p]; cbn [binary_normalize]; [left; left; reflexivity|apply round_nonneg|lia]. Qed.

Lemma abs_nonneg x : is_finite x = true -> nonneg_float (sf_abs x).
Proof. destruct x; cbn; try discriminate; intros _; [left|right]; eauto. Qed.
Lemma mul_nonneg x y : nonneg_float x -> nonneg_float y -> nonneg_or_inf (SFmul 53 1024 x y).
Proof.
  intros [->|(m & e & ->)] [->|(m2 & e2 & ->)]; cbn [SFmul xorb]; try (left; left; reflexivity).
  apply round_aux_nonneg. lia.
Qed.
Lemma add_nonneg x y : nonneg_float x -> nonneg_or_inf y -> nonneg_or_inf (SFadd 53 1024 x y).
Proof.
  intros [->|(m & e & ->)] [[->|(m2 & e2 & ->)]| ->]; cbn [SFadd Bool.eqb]; try (left; left; reflexivity); try (right; reflexivity).
  - left; right; eauto.
  - left; right; eauto.
  - apply normalize_nonneg. cbn [cond_Zopp]. lia.
Qed.
Lemma sub_self x : is_finite x = true -> exists s, SFsub 53 1024 x x = S754_zero s.
Proof.
  destruct x as [s| | |s m e]; try discriminate; intros _.
  - destruct s; eexists; reflexivity.
  - cbn [SFsub]. rewrite Z.sub_diag. cbn [binary_normalize]. eauto.
Qed.
Lemma close_refl o x : nonneg_float (c_atol o) -> nonneg_float (c_rtol o) -> is_finite x = true -> close o x x.
Proof.
  intros A R F. unfold close. destruct (sub_self x F) as [s ->]. cbn [sf_abs].
  assert (N : nonneg_or_inf (SFadd 53 1024 (c_atol o) (SFmul 53 1024 (c_rtol o) (sf_abs x)))) by (apply add_nonneg; [exact A|apply mul_nonneg; [exact R|apply abs_nonneg; exact F]]).
  destruct N as [[->|(m & e & ->)]| ->]; reflexivity.
Qed.
Theorem same_refl o a : nonneg_float (c_atol o) -> nonneg_float (c_rtol o) -> finite_data a -> same o a a.
Proof.
  intros A R. revert a. fix IH 1. intros a F. destruct a as [n|s|l|d| | | |].
  - destruct n as [z|f|f fs]; [constructor| |]; (inversion F as [|? x X Q| | | |]; subst; inversion X; subst; econstructor; [constructor|constructor|apply close_refl; assumption]).
  - constructor. unfold same_text. destruct (c_strlen o); reflexivity.
  - inversion F as [| | | |? L|]; subst. constructor. clear F. induction l as [|x l IHl]; constructor; [apply IH; inversion L; assumption|apply IHl; inversion L; assumption].
  - assert (G : forall k x, dget k d = Some x -> finite_data x -> same o x x).
    { clear F. induction d as [|[k' v] d IHd]; intros k x X Q; [discriminate|]. cbn [dget] in X. destruct (key_eqb k k'); [|exact (IHd k x X Q)].
      injection X as <-. exact (IH v Q). }
    inversion F as [| | | | |? D]; subst. apply sm_dict; [tauto|]. intros k x y X Y. rewrite X in Y. injection Y as <-. exact (G k x X (D k x X)).
  - inversion F.
  - constructor.
  - inversion F.
  - inversion F.
Qed.
