(** Descriptions (C44). *)
From Coq Require Import Ascii String ZArith Bool Lia List Sorted Permutation.
From Verif Require Import PyBase PyFloat ModelFortran ModelRecords ModelTape ModelInterp ModelPath ModelTools SpecTape SpecInterp SpecPath SpecTools.
From Verif Require Import ProofPyBase ProofInterpSec ProofTools.
Import ListNotations.
Open Scope Z_scope.

(** ** Lines *)

Definition no_break (s : str) : Prop := Forall (fun c => is_break c = false) s.

Lemma split_lines_line s : no_break s -> forall cur, split_lines s cur = match rev s ++ cur with [] => [] | x => [rev x] end.
Proof.
  induction 1 as [|c s H F IH]; intros cur; cbn [split_lines]; [destruct cur; reflexivity|]. rewrite H, IH. cbn [rev]. rewrite <- app_assoc. reflexivity.
Qed.
Lemma split_lines_next s r : no_break s -> forall cur, split_lines (s ++ lf :: r) cur = (rev cur ++ s) :: split_lines r [].
Proof.
  induction 1 as [|c s H F IH]; intros cur; cbn [app split_lines].
  - change (is_break lf) with true. cbn [app]. rewrite app_nil_r. f_equal. change (chr_eqb lf cr) with false. cbn [andb]. destruct r; reflexivity.
  - rewrite H. rewrite IH. cbn [rev]. rewrite <- app_assoc. reflexivity.
Qed.
(** joining and splitting *)
Lemma splitlines_join l : Forall no_break l -> (forall p s, l = p ++ [s] -> s <> []) -> splitlines (join [lf] l) = l.
Proof.
  induction l as [|s l IH]; intros F L; [reflexivity|]. inversion F; subst. destruct l as [|t l].
  - cbn [join]. unfold splitlines. rewrite split_lines_line by assumption. rewrite app_nil_r. specialize (L [] s eq_refl).
    destruct (rev s) as [|x r] eqn:E; [exfalso; apply L; rewrite <- (rev_involutive s), E; reflexivity|]. rewrite <- E, rev_involutive. reflexivity.
  - cbn [join]. unfold splitlines. change ([lf] ++ ?x) with (lf :: x). rewrite split_lines_next by assumption. cbn [rev app]. f_equal. apply IH; [assumption|].
    intros p q E. apply (L (s :: p) q). rewrite E. reflexivity.
Qed.
Lemma split_lines_no_break n : forall s cur, (length s <= n)%nat -> no_break cur -> Forall no_break (split_lines s cur).
Proof.
  induction n as [|n IH]; intros s cur L F.
  - destruct s; [|cbn in L; lia]. cbn [split_lines]. destruct cur as [|a cur]; constructor; [|constructor]. apply Forall_rev. exact F.
  - destruct s as [|c s]; cbn [split_lines].
    + destruct cur as [|a cur]; constructor; [|constructor]. apply Forall_rev. exact F.
    + cbn [length] in L. destruct (is_break c) eqn:B.
      * constructor; [apply Forall_rev; exact F|]. destruct s as [|c2 r2]; [constructor|]. cbn [length] in L. destruct (_ && _); apply IH; cbn [length]; try lia; constructor.
      * apply IH; [lia|]. constructor; assumption.
Qed.
Lemma splitlines_no_break s : Forall no_break (splitlines s).
Proof. apply (split_lines_no_break (length s)); [lia|constructor]. Qed.

(** ** Sorted keys *)

Lemma insert_sorted x l : StronglySorted Z.le l -> StronglySorted Z.le (insert_by Z.leb x l).
Proof.
  induction 1 as [|y l S IH F]; cbn [insert_by]; [repeat constructor|]. destruct (Z.leb_spec x y) as [H|H].
  - constructor; [constructor; assumption|]. constructor; [exact H|]. apply Forall_forall. intros z I. rewrite Forall_forall in F. specialize (F z I). lia.
  - constructor; [exact IH|]. apply Forall_forall. intros z I. apply (Permutation_in z (insert_perm Z.leb x l)) in I. destruct I as [<-|I]; [lia|]. rewrite Forall_forall in F. exact (F z I).
Qed.
Lemma sort_sorted l : StronglySorted Z.le (sort_by Z.leb l).
Proof. induction l as [|x l IH]; cbn [sort_by fold_right]; [constructor|]. apply insert_sorted. exact IH. Qed.
Lemma sorted_unique l : forall m, StronglySorted Z.le l -> StronglySorted Z.le m -> Permutation l m -> l = m.
Proof.
  induction l as [|x l IH]; intros m S T P; [apply Permutation_nil in P; congruence|]. destruct m as [|y m]; [apply Permutation_sym, Permutation_nil in P; discriminate|].
  inversion S as [|? ? S1 S2]; subst. inversion T as [|? ? T1 T2]; subst. rewrite Forall_forall in S2, T2.
  assert (x = y).
  { assert (A : In y (x :: l)) by (apply (Permutation_in y (Permutation_sym P)); left; reflexivity).
    assert (B : In x (y :: m)) by (apply (Permutation_in x P); left; reflexivity).
    destruct A as [A|A]; [auto|]. destruct B as [B|B]; [auto|]. specialize (S2 y A). specialize (T2 x B). lia. }
  subst y. f_equal. apply IH; try assumption. exact (Permutation_cons_inv P).
Qed.
Fixpoint nums (i : Z) (n : nat) : list Z := match n with O => [] | S m => i :: nums (i + 1) m end.
Lemma nums_in n : forall i z, In z (nums i n) <-> i <= z < i + Z.of_nat n.
Proof. induction n as [|n IH]; intros i z; cbn [nums In]; [lia|]. rewrite IH. lia. Qed.
Lemma nums_sorted n : forall i, StronglySorted Z.le (nums i n).
Proof. induction n as [|n IH]; intros i; cbn [nums]; constructor; [apply IH|]. apply Forall_forall. intros z I. apply nums_in in I. lia. Qed.
Lemma nums_nodup n : forall i, NoDup (nums i n).
Proof. induction n as [|n IH]; intros i; cbn [nums]; constructor; [|apply IH]. intros I. apply nums_in in I. lia. Qed.
Lemma sort_nums l n : NoDup l -> (forall z, In z l <-> 1 <= z < 1 + Z.of_nat n) -> sort_by Z.leb l = nums 1 n.
Proof.
  intros N H. apply sorted_unique; [apply sort_sorted|apply nums_sorted|]. rewrite sort_perm. apply NoDup_Permutation; [exact N|apply nums_nodup|].
  intros z. rewrite H, nums_in. tauto.
Qed.

(** ** C44 *)

Lemma unique_dget (d : dict) k v : unique_keys d -> In (k, v) d -> dget k d = Some v.
Proof.
  unfold unique_keys. induction d as [|[k' v'] d IH]; cbn [map fst In dget]; intros N H; [destruct H|]; destruct H as [H|H]; [injection H as -> ->; rewrite key_eqb_refl; reflexivity|].
  inversion N; subst. rewrite key_eqb_neq; [auto|]. intros ->. apply H2. apply in_map_iff. exists (k', v). auto.
Qed.

Section Described.
Context (d : dict) (l : list str) (U : unique_keys d)
  (H : forall k v, In (k, v) d <-> exists i s, nth_error l i = Some s /\ k = KInt (Z.of_nat i + 1) /\ v = VStr s).

Lemma desc_str_keys : str_keys (map fst d) = [].
Proof.
  unfold str_keys. clear U. assert (F : Forall (fun k => exists z, k = KInt z) (map fst d)).
  { apply Forall_forall. intros k I. apply in_map_iff in I as ([k' v] & <- & I). apply H in I as (i & s & _ & -> & _). eexists; reflexivity. }
  induction F as [|k ks [z ->] F IH]; [reflexivity|]. exact IH.
Qed.
Lemma desc_num_keys : sort_by Z.leb (num_keys (map fst d)) = nums 1 (length l).
Proof.
  apply sort_nums.
  - unfold unique_keys in U. clear H. revert U. generalize (map fst d). induction l0 as [|[z|s] ks IH]; cbn [num_keys flat_map app]; intros N; inversion N; subst; [constructor| |auto].
    constructor; [|auto]. intros I. unfold num_keys in I. apply in_flat_map in I as ([y|t] & J & E); [|destruct E]. destruct E as [->|[]]. contradiction.
  - intros z. unfold num_keys. rewrite in_flat_map. split.
    + intros ([y|t] & J & E); [|destruct E]. destruct E as [->|[]]. apply in_map_iff in J as ([k v] & E & I). cbn in E. subst k. apply H in I as (i & s & G & E & _). injection E as ->.
      assert (i < length l)%nat by (apply nth_error_Some; congruence). lia.
    + intros R. destruct (nth_error l (Z.to_nat (z - 1))) as [s|] eqn:G; [|apply nth_error_None in G; lia].
      exists (KInt z). split; [|left; reflexivity]. apply in_map_iff. exists (KInt z, VStr s). split; [reflexivity|]. apply H. exists (Z.to_nat (z - 1)), s.
      split; [exact G|]. split; [f_equal; lia|reflexivity].
Qed.
Lemma desc_lines : forall n i0, (forall i, (i < n)%nat -> exists s, nth_error l (i0 + i) = Some s) ->
  exists ss, mapM (fun k => do x <- lookup k d; match x with VStr s => Ok s | _ => Err TypeError end) (map KInt (nums (Z.of_nat i0 + 1) n)) = Ok ss /\
    length ss = n /\ forall i s, nth_error ss i = Some s -> nth_error l (i0 + i) = Some s.
Proof.
  induction n as [|n IH]; intros i0 G; cbn [nums map mapM]; [exists []; repeat split; intros [|i]; discriminate|].
  destruct (G 0%nat) as [s G0]; [lia|]. rewrite Nat.add_0_r in G0.
  assert (L : lookup (KInt (Z.of_nat i0 + 1)) d = Ok (VStr s)).
  { unfold lookup. rewrite (unique_dget d _ (VStr s) U); [reflexivity|]. apply H. eauto. }
  rewrite L. cbn [bind]. replace (Z.of_nat i0 + 1 + 1) with (Z.of_nat (S i0) + 1) by lia. destruct (IH (S i0)) as (ss & E & Ls & Q).
  { intros i I. destruct (G (S i)) as [t T]; [lia|]. exists t. rewrite <- T. f_equal. lia. }
  rewrite E. cbn [bind]. exists (s :: ss). split; [reflexivity|]. split; [cbn; congruence|]. intros [|i] t X; cbn [nth_error] in X.
  - injection X as <-. rewrite Nat.add_0_r. exact G0.
  - rewrite <- (Q i t X). f_equal. lia.
Qed.
Lemma desc_get mt451 : dget (KStr $"DESCRIPTION") mt451 = Some (VDict d) -> get_description mt451 = Ok (join [lf] l).
Proof.
  intros D. unfold get_description. unfold lookup at 1. rewrite D. cbn [bind]. unfold sorted_same. rewrite desc_str_keys, desc_num_keys. cbn [bind].
  destruct (desc_lines (length l) 0) as (ss & E & L & Q).
  { intros i I. cbn [Nat.add]. destruct (nth_error l i) as [s|] eqn:G; [eauto|]. apply nth_error_None in G. lia. }
  change (Z.of_nat 0 + 1) with 1 in E. rewrite E. cbn [bind]. do 2 f_equal.
  assert (X : forall (a b : list str), length a = length b -> (forall i s, nth_error a i = Some s -> nth_error b i = Some s) -> a = b).
  { induction a as [|x a IH]; intros [|y b] LE N; try discriminate; [reflexivity|]. f_equal; [specialize (N 0%nat x eq_refl); injection N as ->; reflexivity|].
    apply IH; [cbn in LE; lia|]. intros i s Y. exact (N (S i) s Y). }
  apply X; [exact L|exact Q].
Qed.
End Described.

Lemma described_get mt451 l : describes mt451 l -> get_description mt451 = Ok (join [lf] l).
Proof. intros (d & D & U & H). exact (desc_get d l U H mt451 D). Qed.

Lemma number_in {A} (l : list A) : forall i0 k v, In (k, v) (number_from i0 l) <-> exists i, nth_error l i = Some v /\ k = KInt (Z.of_nat i + i0).
Proof.
  induction l as [|x l IH]; intros i0 k v; cbn [number_from In].
  - split; [intros []|intros ([|i] & E & _); discriminate].
  - rewrite IH. split.
    + intros [E|(i & E & ->)]; [injection E as <- <-; exists 0%nat; auto|]. exists (S i). split; [exact E|]. f_equal. lia.
    + intros ([|i] & E & ->); [injection E as ->; left; reflexivity|]. right. exists i. split; [exact E|]. f_equal. lia.
Qed.
Lemma number_keys {A} (l : list A) : forall i0, map fst (number_from i0 l) = map KInt (nums i0 (length l)).
Proof. induction l as [|x l IH]; intros i0; cbn [number_from map length nums fst]; [reflexivity|]. rewrite IH. reflexivity. Qed.
Lemma map_fst_second {A B} (f : A -> B) (l : list (key * A)) : map fst (map (fun kx => (fst kx, f (snd kx))) l) = map fst l.
Proof. rewrite map_map. apply map_ext. reflexivity. Qed.
Lemma numbered_unique {A} (f : A -> val) (l : list A) i0 : unique_keys (map (fun kx => (fst kx, f (snd kx))) (number_from i0 l)).
Proof.
  unfold unique_keys. rewrite map_fst_second, number_keys. apply FinFun.Injective_map_NoDup; [intros a b E; injection E; auto|apply nums_nodup].
Qed.

Lemma set_describes text mt451 : describes (set_description text mt451) (map (ljust 66) (splitlines text)).
Proof.
  unfold set_description, describes. eexists. rewrite dget_dset_same. split; [reflexivity|]. split; [exact (numbered_unique (fun s => VStr (ljust 66 s)) (splitlines text) 1)|].
  intros k v. rewrite in_map_iff. split.
  - intros ([k' s] & E & I). injection E as <- <-. apply number_in in I as (i & G & ->). exists i, (ljust 66 s). rewrite nth_error_map, G. auto.
  - intros (i & s & G & -> & ->). rewrite nth_error_map in G. destruct (nth_error (splitlines text) i) as [t|] eqn:T; [|discriminate]. injection G as <-.
    exists (KInt (Z.of_nat i + 1), t). split; [reflexivity|]. apply number_in. eauto.
Qed.
Lemma set_others text mt451 k : k <> KStr $"NWD" -> k <> KStr $"DESCRIPTION" -> dget k (set_description text mt451) = dget k mt451.
Proof. intros A B. unfold set_description. rewrite !dget_dset_other by congruence. reflexivity. Qed.
Lemma set_nwd text mt451 : dget (KStr $"NWD") (set_description text mt451) = Some (VNum (NInt (Z.of_nat (length (splitlines text)) + 5))).
Proof. unfold set_description. rewrite dget_dset_other by discriminate. apply dget_dset_same. Qed.

Lemma firstn_forall {A} (P : A -> Prop) n l : Forall P l -> Forall P (firstn n l).
Proof. intros F. rewrite <- (firstn_skipn n l) in F. apply Forall_app in F. tauto. Qed.
Lemma skipn_forall {A} (P : A -> Prop) n l : Forall P l -> Forall P (skipn n l).
Proof. intros F. rewrite <- (firstn_skipn n l) in F. apply Forall_app in F. tauto. Qed.

Lemma insert_lines text k old mt451 : describes mt451 old -> Forall one_line old -> 0 <= k ->
  (forall p, splitlines text <> p ++ [[]]) \/ k < Z.of_nat (length old) ->
  let new := firstn (Z.to_nat k) old ++ splitlines text ++ skipn (Z.to_nat k) old in
  exists mt451', insert_description text k mt451 = Ok mt451' /\ describes mt451' (map (ljust 66) new) /\
    dget (KStr $"NWD") mt451' = Some (VNum (NInt (Z.of_nat (length new) + 5))) /\
    (forall x, x <> KStr $"NWD" -> x <> KStr $"DESCRIPTION" -> dget x mt451' = dget x mt451).
Proof.
  intros D O K L new. unfold insert_description. rewrite (described_get _ _ D). cbn [bind].
  assert (OB : Forall no_break old) by (eapply Forall_impl; [|exact O]; intros s [_ X]; exact X).
  assert (ON : Forall (fun s => s <> []) old) by (eapply Forall_impl; [|exact O]; intros s [X _]; exact X).
  assert (SO : splitlines (join [lf] old) = old).
  { apply splitlines_join; [exact OB|]. intros p s ->. apply Forall_app in ON as [_ ON]. inversion ON; assumption. }
  rewrite SO. unfold slice_at_z. rewrite (proj2 (Z.ltb_ge k 0)) by lia.
  assert (E : firstn (Z.to_nat k) old ++ splitlines text ++ (if k <? Z.of_nat (length old) then skipn (Z.to_nat k) old else []) = new).
  { unfold new. do 2 f_equal. destruct (Z.ltb_spec k (Z.of_nat (length old))) as [|G]; [reflexivity|]. symmetry. apply skipn_all2. lia. }
  rewrite E. assert (SN : splitlines (join [lf] new) = new).
  { apply splitlines_join.
    - unfold new. apply Forall_app. split; [apply firstn_forall; exact OB|]. apply Forall_app. split; [apply splitlines_no_break|apply skipn_forall; exact OB].
    - intros p s X. unfold new in X. destruct (skipn (Z.to_nat k) old) as [|y r] eqn:SK.
      + rewrite app_nil_r in X. destruct (splitlines text) as [|a b _] eqn:T using rev_ind.
        * rewrite app_nil_r in X. assert (F : Forall (fun s => s <> []) (p ++ [s])) by (rewrite <- X; apply firstn_forall; exact ON). apply Forall_app in F as [_ F]. inversion F; assumption.
        * rewrite app_assoc in X. apply app_inj_tail in X as [_ <-]. destruct L as [L|L].
          { intros ->. exact (L b eq_refl). }
          exfalso. assert (length (skipn (Z.to_nat k) old) = 0%nat) by (rewrite SK; reflexivity). rewrite skipn_length in H. lia.
      + assert (F : Forall (fun s => s <> []) (y :: r)) by (rewrite <- SK; apply skipn_forall; exact ON).
        destruct (exists_last (l := y :: r)) as (r' & z & R); [discriminate|]. rewrite R in X, F. rewrite !app_assoc in X. apply app_inj_tail in X as [_ <-].
        apply Forall_app in F as [_ F]. inversion F; assumption. }
  eexists. split; [reflexivity|]. split; [|split].
  - rewrite <- SN at 2. apply set_describes.
  - rewrite set_nwd, SN. reflexivity.
  - intros x A B. apply set_others; assumption.
Qed.
