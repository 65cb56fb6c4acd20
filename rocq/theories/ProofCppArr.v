(** Arrays of compiled parsers and of the interpreter. *)
From Coq Require Import Ascii String ZArith Bool Lia List.
From Verif Require Import PyBase ModelInterp ModelPath ModelCpp ModelCppArr SpecCppArr ProofInterpFrame ProofPathStr.
Import ListNotations.
Open Scope Z_scope.

(** ** Vectors *)

Definition nthz {A} (l : list A) (k : Z) : option A := if k <? 0 then None else nth_error l (Z.to_nat k).

Lemma in_size_iff k n : in_size k n = true <-> 0 <= k < Z.of_nat n.
Proof. unfold in_size. rewrite andb_true_iff, Z.leb_le, Z.ltb_lt. tauto. Qed.
Lemma nthz_some {A} (l : list A) k : 0 <= k < Z.of_nat (length l) -> exists a, nthz l k = Some a.
Proof.
  intros H. unfold nthz. destruct (Z.ltb_spec k 0); [lia|].
  destruct (nth_error l (Z.to_nat k)) eqn:E; [eauto|].
  apply nth_error_None in E. lia.
Qed.
Lemma nthz_none {A} (l : list A) k : ~ 0 <= k < Z.of_nat (length l) -> nthz l k = None.
Proof.
  intros H. unfold nthz. destruct (Z.ltb_spec k 0); [reflexivity|].
  apply nth_error_None. lia.
Qed.
Lemma nthz_range {A} (l : list A) k a : nthz l k = Some a -> 0 <= k < Z.of_nat (length l).
Proof.
  unfold nthz. destruct (Z.ltb_spec k 0); [discriminate|]. intros E.
  assert (nth_error l (Z.to_nat k) <> None) as N by congruence.
  apply nth_error_Some in N. lia.
Qed.
Lemma nthz_nth {A} (l : list A) k a : nthz l k = Some a -> nth_error l (Z.to_nat k) = Some a.
Proof. unfold nthz. destruct (k <? 0); [discriminate|auto]. Qed.
Lemma nthz_in {A} (l : list A) k a : nthz l k = Some a -> In a l.
Proof. intros H. apply nthz_nth in H. eapply nth_error_In, H. Qed.

Lemma replace_length {A} k (x : A) l : length (replace k x l) = length l.
Proof. revert k. induction l as [|y l IH]; intros [|k]; cbn [replace length]; auto. Qed.
Lemma replace_same {A} (l : list A) k x : (k < length l)%nat -> nth_error (replace k x l) k = Some x.
Proof.
  revert k. induction l as [|y l IH]; intros [|k] H; cbn [replace length nth_error] in *; try lia; auto.
  apply IH. lia.
Qed.
Lemma replace_other {A} (l : list A) k j x : k <> j -> nth_error (replace k x l) j = nth_error l j.
Proof.
  revert k j. induction l as [|y l IH]; intros [|k] [|j] H; cbn [replace nth_error]; auto; congruence.
Qed.
Lemma replace_forall {A} (P : A -> Prop) k x l : P x -> Forall P l -> Forall P (replace k x l).
Proof.
  revert k. induction l as [|y l IH]; intros [|k] Hx H; cbn [replace]; auto; inversion H; subst;
    constructor; auto.
Qed.
Lemma replace_map {A B} (f : A -> B) k x l : map f (replace k x l) = replace k (f x) (map f l).
Proof. revert k. induction l as [|y l IH]; intros [|k]; cbn [replace map]; auto. now rewrite IH. Qed.
Lemma nthz_replace {A} (l : list A) k x j : 0 <= k < Z.of_nat (length l) ->
  nthz (replace (Z.to_nat k) x l) j = if j =? k then Some x else nthz l j.
Proof.
  intros H. unfold nthz. destruct (Z.ltb_spec j 0), (Z.eqb_spec j k); try lia; subst.
  - reflexivity.
  - apply replace_same. lia.
  - apply replace_other. lia.
Qed.
Lemma nthz_snoc {A} (l : list A) x j :
  nthz (l ++ [x]) j = if j =? Z.of_nat (length l) then Some x else nthz l j.
Proof.
  unfold nthz. destruct (Z.ltb_spec j 0), (Z.eqb_spec j (Z.of_nat (length l))); try lia; subst.
  - reflexivity.
  - rewrite nth_error_app2 by lia. replace (Z.to_nat _ - length l)%nat with 0%nat by lia. reflexivity.
  - destruct (le_lt_dec (length l) (Z.to_nat j)).
    + rewrite (proj2 (nth_error_None l _)) by lia. apply nth_error_None. rewrite app_length. cbn [length]. lia.
    + now apply nth_error_app1.
Qed.
Lemma nthz_map {A B} (f : A -> B) l k : nthz (map f l) k = option_map f (nthz l k).
Proof. unfold nthz. destruct (k <? 0); [reflexivity|]. apply nth_error_map. Qed.

(** ** Numbered dictionaries *)

Lemma dget_number (l : list val) s i : dget (KInt i) (number s l) = nthz l (i - s).
Proof.
  revert s. induction l as [|v l IH]; intros s; cbn [number dget].
  - unfold nthz. destruct (i - s <? 0); [reflexivity|]. now destruct (Z.to_nat (i - s)).
  - cbn [key_eqb]. destruct (Z.eqb_spec i s) as [->|N].
    + rewrite Z.sub_diag. reflexivity.
    + rewrite IH. unfold nthz. destruct (Z.ltb_spec (i - (s + 1)) 0), (Z.ltb_spec (i - s) 0); try lia; auto.
      replace (Z.to_nat (i - s)) with (S (Z.to_nat (i - (s + 1)))) by lia. reflexivity.
Qed.
Lemma dset_number (l : list val) s i v : s <= i < s + Z.of_nat (length l) ->
  dset (KInt i) v (number s l) = number s (replace (Z.to_nat (i - s)) v l).
Proof.
  revert s. induction l as [|w l IH]; intros s H; cbn [number dset length] in *; [lia|].
  cbn [key_eqb]. destruct (Z.eqb_spec i s) as [->|N].
  - rewrite Z.sub_diag. reflexivity.
  - rewrite IH by lia. replace (Z.to_nat (i - s)) with (S (Z.to_nat (i - (s + 1)))) by lia. reflexivity.
Qed.
Lemma dset_number_end (l : list val) s i v : i = s + Z.of_nat (length l) ->
  dset (KInt i) v (number s l) = number s (l ++ [v]).
Proof.
  revert s. induction l as [|w l IH]; intros s H; cbn [number dset length app] in *.
  - rewrite H. replace (s + Z.of_nat 0) with s by lia. reflexivity.
  - cbn [key_eqb]. destruct (Z.eqb_spec i s) as [->|N]; [lia|].
    rewrite IH by lia. reflexivity.
Qed.

(** ** NestedVector *)

Fixpoint wf (n : nat) (x : nvec) : Prop :=
  match n, x with
  | O, Cell _ => True
  | S k, Vec s l els => 0 <= s /\ els <> [] /\ l = s + Z.of_nat (length els) - 1 /\ Forall (wf k) els
  | _, _ => False
  end.

Fixpoint look (p : place) (x : nvec) : option val :=
  match p, x with
  | [], Cell v => Some v
  | i :: r, Vec s _ els => match nthz els (i - s) with Some e => look r e | None => None end
  | _, _ => None
  end.

Fixpoint fits (p : place) (x : nvec) : bool :=
  match p, x with
  | i :: r, Vec s _ els =>
      match els with
      | [] => true
      | _ => match nthz els (i - s) with
             | Some e => fits r e
             | None => i =? s + Z.of_nat (length els)
             end
      end
  | _, _ => true
  end.

Definition place_eqb (p q : place) : bool := if list_eq_dec Z.eq_dec p q then true else false.
Lemma place_eqb_iff p q : place_eqb p q = true <-> p = q.
Proof. unfold place_eqb. destruct (list_eq_dec Z.eq_dec p q); split; congruence. Qed.
Lemma place_eqb_cons i p j q : place_eqb (i :: p) (j :: q) = (i =? j) && place_eqb p q.
Proof.
  apply eq_true_iff_eq. rewrite andb_true_iff, !place_eqb_iff, Z.eqb_eq. split.
  - intros H. injection H as -> ->. auto.
  - intros [-> ->]. reflexivity.
Qed.

Definition vec_of (s : Z) (els : list nvec) : nvec := Vec s (s + Z.of_nat (length els) - 1) els.

Lemma nv_set_empty i e : nv_set i e nv_empty = Val (vec_of i [e]).
Proof.
  unfold nv_set, nv_empty, vec_of. cbn [length app]. change (-1 =? -1) with true. cbn match.
  replace (i + Z.of_nat 0) with i by lia. rewrite Z.eqb_refl.
  replace (i + Z.of_nat 1 - 1) with i by lia. reflexivity.
Qed.
Lemma nv_set_vec s els i e : 0 <= s -> els <> [] ->
  nv_set i e (vec_of s els) =
  if i =? s + Z.of_nat (length els) then Val (vec_of s (els ++ [e]))
  else if in_size (i - s) (length els) then Val (vec_of s (replace (Z.to_nat (i - s)) e els))
  else Throw.
Proof.
  intros H N. unfold nv_set, vec_of. destruct els as [|a els]; [congruence|]. clear N.
  set (L := a :: els). assert (1 <= Z.of_nat (length L)) by (subst L; cbn [length]; lia).
  destruct (Z.eqb_spec (s + Z.of_nat (length L) - 1) (-1)); [lia|].
  rewrite app_length, replace_length. cbn [length].
  destruct (i =? _); [|reflexivity].
  do 2 f_equal. lia.
Qed.
Lemma nv_contains_vec s els i : nv_contains i (vec_of s els) = in_size (i - s) (length els).
Proof.
  unfold nv_contains, vec_of, in_size. apply eq_true_iff_eq.
  rewrite !andb_true_iff, !Z.leb_le, Z.ltb_lt. lia.
Qed.
Lemma nv_at_vec s els i e : nthz els (i - s) = Some e -> nv_at i (vec_of s els) = Val e.
Proof.
  intros H. pose proof (nthz_range _ _ _ H) as R. pose proof (nthz_nth _ _ _ H) as E.
  unfold nv_at, vec_of at 1. rewrite nv_contains_vec.
  rewrite (proj2 (in_size_iff _ _) R), E. reflexivity.
Qed.
Lemma nv_put_vec s els i e : nv_put i e (vec_of s els) = vec_of s (replace (Z.to_nat (i - s)) e els).
Proof. unfold nv_put, vec_of. now rewrite replace_length. Qed.
Lemma wf_vec n x : wf (S n) x -> exists s els, x = vec_of s els /\ 0 <= s /\ els <> [] /\ Forall (wf n) els.
Proof.
  destruct x as [v|s l els]; cbn [wf]; [tauto|]. intros (A & B & -> & C). exists s, els. auto.
Qed.
Lemma wf_vec_of n s els : 0 <= s -> els <> [] -> Forall (wf n) els -> wf (S n) (vec_of s els).
Proof. intros. cbn [wf vec_of]. auto. Qed.
Lemma nv_dict_vec s els : nv_dict (vec_of s els) = VDict (number s (map nv_dict els)).
Proof. reflexivity. Qed.
Lemma length_pos {A} (l : list A) : l <> [] -> 1 <= Z.of_nat (length l).
Proof. destruct l; [congruence|]. cbn [length]. lia. Qed.

Definition started (n : nat) (x : nvec) : Prop := x = nv_empty \/ wf n x.

Definition step_ok (p : place) (v : val) (n : nat) (x : nvec) : Prop :=
  if fits p x then
    exists x', nv_assign p v x = Val x' /\ wf n x' /\
      set_indexed p v (nv_dict x) = Ok (nv_dict x') /\
      forall q, length q = n -> look q x' = if place_eqb q p then Some v else look q x
  else nv_assign p v x = Throw.

Lemma nv_assign_more i r v x : r <> [] ->
  nv_assign (i :: r) v x =
  (let* x1 := nv_prepare i x in let* sub := nv_at i x1 in
   let* sub' := nv_assign r v sub in Val (nv_put i sub' x1)).
Proof. destruct r; [congruence|reflexivity]. Qed.
Lemma set_indexed_cons i r v d :
  set_indexed (i :: r) v (VDict d) =
  (do sub' <- set_indexed r v (match dget (KInt i) d with Some o => o | None => VDict [] end);
   Ok (VDict (dset (KInt i) sub' d))).
Proof. reflexivity. Qed.

Lemma last_step i v s els : 0 <= s -> els <> [] -> Forall (wf 0) els -> step_ok [i] v 1 (vec_of s els).
Proof.
  intros S0 N W. unfold step_ok. cbn [fits vec_of]. fold (vec_of s els).
  destruct els as [|a0 els0] eqn:EE; [congruence|]. rewrite <- EE in *. clear EE a0 els0.
  cbn [nv_assign]. rewrite (nv_set_vec _ _ _ _ S0 N).
  assert (FL : forall (q : place) (x : nvec), length q = 1%nat -> exists j, q = [j]).
  { intros [|j [|? ?]] x H; try discriminate. eauto. }
  destruct (nthz els (i - s)) as [e|] eqn:E.
  - pose proof (nthz_range _ _ _ E) as R.
    replace (fits [] e) with true by (destruct e; reflexivity).
    destruct (Z.eqb_spec i (s + Z.of_nat (length els))); [lia|].
    rewrite (proj2 (in_size_iff _ _) R).
    eexists; split; [reflexivity|]. split; [|split].
    + apply wf_vec_of; auto.
      * intros H. apply (f_equal (@length _)) in H. rewrite replace_length in H. cbn [length] in H. lia.
      * apply replace_forall; [exact Logic.I|exact W].
    + rewrite !nv_dict_vec, set_indexed_cons, dget_number, nthz_map, E. cbn [option_map set_indexed bind].
      rewrite dset_number by (rewrite map_length; lia). rewrite replace_map. reflexivity.
    + intros q Hq. destruct (FL q e Hq) as [j ->]. cbn [look vec_of].
      rewrite nthz_replace by exact R. rewrite place_eqb_cons.
      destruct (Z.eqb_spec (j - s) (i - s)), (Z.eqb_spec j i); try lia; cbn [andb look].
      * reflexivity.
      * reflexivity.
  - assert (~ 0 <= i - s < Z.of_nat (length els)) as R.
    { intros R. destruct (nthz_some _ _ R) as [? ?]. congruence. }
    destruct (Z.eqb_spec i (s + Z.of_nat (length els))) as [Ei|Ni].
    + eexists; split; [reflexivity|]. split; [|split].
      * apply wf_vec_of; auto.
        -- intros H. apply app_eq_nil in H. destruct H. discriminate.
        -- apply Forall_app. split; [exact W|]. constructor; [exact Logic.I|constructor].
      * rewrite !nv_dict_vec, set_indexed_cons, dget_number, nthz_map, E. cbn [option_map set_indexed bind].
        rewrite dset_number_end by (rewrite map_length; lia). rewrite map_app. reflexivity.
      * intros q Hq. destruct (FL q nv_empty Hq) as [j ->]. cbn [look vec_of].
        rewrite nthz_snoc, place_eqb_cons.
        destruct (Z.eqb_spec (j - s) (Z.of_nat (length els))), (Z.eqb_spec j i); try lia; cbn [andb look];
          reflexivity.
    + destruct (in_size (i - s) (length els)) eqn:Es; [|reflexivity].
      apply in_size_iff in Es. lia.
Qed.

Lemma look_empty q n : length q = S n -> look q nv_empty = None.
Proof.
  destruct q as [|i q]; [discriminate|]. intros _. cbn [look nv_empty]. rewrite nthz_none; [reflexivity|].
  cbn [length]. lia.
Qed.
Lemma fits_empty p : fits p nv_empty = true.
Proof. destruct p; reflexivity. Qed.
Lemma look_single i j r e : look (j :: r) (vec_of i [e]) = if j =? i then look r e else None.
Proof.
  cbn [look vec_of]. destruct (Z.eqb_spec j i) as [->|N].
  - rewrite Z.sub_diag. reflexivity.
  - rewrite nthz_none; [reflexivity|]. cbn [length]. lia.
Qed.

Lemma step n : forall p v x, length p = S n -> Forall (fun i => 0 <= i) p -> started (S n) x ->
  step_ok p v (S n) x.
Proof.
  induction n as [|n IH]; intros p v x Hp P [->|W].
  - (* a new vector, one index *)
    destruct p as [|i [|? ?]]; try discriminate. unfold step_ok. rewrite fits_empty.
    cbn [nv_assign]. rewrite nv_set_empty. inversion P; subst.
    eexists; split; [reflexivity|]. split; [|split].
    + apply wf_vec_of; [lia|discriminate|]. constructor; [exact Logic.I|constructor].
    + reflexivity.
    + intros [|j [|? ?]] Hq; try discriminate. rewrite (look_single i j []), place_eqb_cons.
      rewrite (look_empty [j] 0) by reflexivity. destruct (j =? i); reflexivity.
  - destruct p as [|i [|? ?]]; try discriminate.
    destruct (wf_vec _ _ W) as (s & els & -> & S0 & N & F). now apply last_step.
  - (* a new vector, several indices *)
    destruct p as [|i r]; [discriminate|]. injection Hp as Hr. inversion P as [|? ? Pi Pr]; subst.
    assert (Nr : r <> []) by (intros ->; discriminate).
    pose proof (IH r v nv_empty Hr Pr (or_introl eq_refl)) as S1. unfold step_ok in S1 |- *.
    rewrite fits_empty in *. destruct S1 as (x' & A & B & C & D).
    rewrite (nv_assign_more _ _ _ _ Nr). unfold nv_prepare.
    replace (nv_contains i nv_empty) with false.
    2:{ symmetry. unfold nv_contains, nv_empty. apply andb_false_iff. right. apply Z.leb_gt. lia. }
    rewrite nv_set_empty. cbn [cbind].
    rewrite (nv_at_vec i [nv_empty] i nv_empty) by (rewrite Z.sub_diag; reflexivity).
    cbn [cbind]. rewrite A. cbn [cbind]. rewrite nv_put_vec, Z.sub_diag. cbn [Z.to_nat replace].
    eexists; split; [reflexivity|]. split; [|split].
    + apply wf_vec_of; [lia|discriminate|]. constructor; [exact B|constructor].
    + change (nv_dict nv_empty) with (VDict []) in *. rewrite set_indexed_cons. cbn [dget].
      rewrite C. reflexivity.
    + intros [|j q] Hq; [discriminate|]. injection Hq as Hq.
      rewrite (look_single i j q), place_eqb_cons, (look_empty (j :: q) (S n)) by (cbn [length]; lia).
      destruct (j =? i); [|reflexivity]. cbn [andb]. rewrite (D _ Hq).
      rewrite (look_empty q n Hq). reflexivity.
  - destruct p as [|i r]; [discriminate|]. injection Hp as Hr. inversion P as [|? ? Pi Pr]; subst.
    assert (Nr : r <> []) by (intros ->; discriminate).
    destruct (wf_vec _ _ W) as (s & els & -> & S0 & N & F). clear W.
    pose proof (length_pos _ N) as LP.
    unfold step_ok. cbn [fits vec_of]. fold (vec_of s els).
    destruct els as [|a0 els0] eqn:EE; [congruence|]. rewrite <- EE in *. clear EE a0 els0.
    rewrite (nv_assign_more _ _ _ _ Nr). unfold nv_prepare. rewrite nv_contains_vec.
    destruct (nthz els (i - s)) as [e|] eqn:E.
    + pose proof (nthz_range _ _ _ E) as R. rewrite (proj2 (in_size_iff _ _) R). cbn [cbind].
      rewrite (nv_at_vec _ _ _ _ E). cbn [cbind].
      assert (We : wf (S n) e). { rewrite Forall_forall in F. apply F. eapply nthz_in, E. }
      pose proof (IH r v e Hr Pr (or_intror We)) as S1. unfold step_ok in S1.
      destruct (fits r e) eqn:Fe; [|rewrite S1; reflexivity].
      destruct S1 as (x' & A & B & C & D). rewrite A. cbn [cbind]. rewrite nv_put_vec.
      eexists; split; [reflexivity|]. split; [|split].
      * apply wf_vec_of; auto.
        -- intros H. apply (f_equal (@length _)) in H. rewrite replace_length in H. cbn [length] in H. lia.
        -- now apply replace_forall.
      * rewrite !nv_dict_vec, set_indexed_cons, dget_number, nthz_map, E. cbn [option_map].
        rewrite C. cbn [bind]. rewrite dset_number by (rewrite map_length; lia). rewrite replace_map. reflexivity.
      * intros [|j q] Hq; [discriminate|]. injection Hq as Hq. cbn [look vec_of].
        rewrite nthz_replace by exact R. rewrite place_eqb_cons.
        destruct (Z.eqb_spec (j - s) (i - s)), (Z.eqb_spec j i); try lia; cbn [andb].
        -- subst j. rewrite (D _ Hq), E. reflexivity.
        -- reflexivity.
    + assert (~ 0 <= i - s < Z.of_nat (length els)) as R.
      { intros R. destruct (nthz_some _ _ R) as [? ?]. congruence. }
      destruct (in_size (i - s) (length els)) eqn:Es; [apply in_size_iff in Es; lia|].
      rewrite (nv_set_vec _ _ _ _ S0 N).
      destruct (Z.eqb_spec i (s + Z.of_nat (length els))) as [Ei|Ni].
      2:{ rewrite Es. reflexivity. }
      cbn [cbind].
      assert (E' : nthz (els ++ [nv_empty]) (i - s) = Some nv_empty).
      { rewrite nthz_snoc. destruct (Z.eqb_spec (i - s) (Z.of_nat (length els))); [reflexivity|lia]. }
      rewrite (nv_at_vec _ _ _ _ E'). cbn [cbind].
      pose proof (IH r v nv_empty Hr Pr (or_introl eq_refl)) as S1. unfold step_ok in S1.
      rewrite fits_empty in S1. destruct S1 as (x' & A & B & C & D). rewrite A. cbn [cbind].
      rewrite nv_put_vec.
      assert (Q : replace (Z.to_nat (i - s)) x' (els ++ [nv_empty]) = els ++ [x']).
      { replace (Z.to_nat (i - s)) with (length els) by lia. clear. induction els; cbn [app length replace]; congruence. }
      rewrite Q. eexists; split; [reflexivity|]. split; [|split].
      * apply wf_vec_of; auto.
        -- intros H. apply app_eq_nil in H. destruct H. discriminate.
        -- apply Forall_app. split; [exact F|]. constructor; [exact B|constructor].
      * rewrite !nv_dict_vec, set_indexed_cons, dget_number, nthz_map, E. cbn [option_map].
        change (nv_dict nv_empty) with (VDict []) in C. rewrite C. cbn [bind].
        rewrite dset_number_end by (rewrite map_length; lia). rewrite map_app. reflexivity.
      * intros [|j q] Hq; [discriminate|]. injection Hq as Hq. cbn [look vec_of].
        rewrite nthz_snoc, place_eqb_cons.
        destruct (Z.eqb_spec (j - s) (Z.of_nat (length els))), (Z.eqb_spec j i); try lia; cbn [andb].
        -- subst j. rewrite (D _ Hq), (look_empty q n Hq). rewrite E. reflexivity.
        -- reflexivity.
Qed.

(** ** Order of the assignments *)

Definition top_follows (P : place -> Prop) (i : Z) : Prop :=
  (forall j rest, ~ P (j :: rest)) \/ (exists j rest, (j = i \/ j = i - 1) /\ P (j :: rest)).
Definition follows_in (P : place -> Prop) (p : place) : Prop :=
  forall pre i post, p = pre ++ i :: post ->
    (forall j rest, ~ P (pre ++ j :: rest)) \/
    (exists j rest, (j = i \/ j = i - 1) /\ P (pre ++ j :: rest)).
Lemma follows_nil P : follows_in P [].
Proof. intros pre i post H. destruct pre; discriminate. Qed.
Lemma follows_cons P i r : follows_in P (i :: r) <-> top_follows P i /\ follows_in (fun q => P (i :: q)) r.
Proof.
  split.
  - intros H. split; [exact (H [] i r eq_refl)|].
    intros pre j post E. apply (H (i :: pre) j post). cbn [app]. now rewrite E.
  - intros [A B] [|k pre] j post E; cbn [app] in *.
    + injection E as <- <-. exact A.
    + injection E as <- E. exact (B pre j post E).
Qed.
Lemma follows_ext P Q p : (forall q, P q <-> Q q) -> follows_in P p -> follows_in Q p.
Proof.
  intros E H pre i post Ep. destruct (H pre i post Ep) as [A|(j & rest & A & B)].
  - left. intros j rest Hq. apply (A j rest), E, Hq.
  - right. exists j, rest. split; [exact A|apply E, B].
Qed.

Lemma wf_place n : forall x, wf n x -> exists q, length q = n /\ look q x <> None.
Proof.
  induction n as [|n IH]; intros x W.
  - destruct x as [v|]; [|destruct W]. exists []. split; [reflexivity|discriminate].
  - destruct (wf_vec _ _ W) as (s & els & -> & S0 & N & F).
    destruct els as [|e els]; [congruence|]. inversion F as [|? ? We Wr]; subst.
    destruct (IH e We) as (q & Lq & Hq). exists (s :: q). split; [cbn [length]; congruence|].
    cbn [look vec_of]. rewrite Z.sub_diag. exact Hq.
Qed.

Definition occupied (n : nat) (P : place -> Prop) (x : nvec) : Prop :=
  forall q, P q <-> length q = n /\ look q x <> None.

Lemma top_range n P s els : wf (S n) (vec_of s els) -> occupied (S n) P (vec_of s els) ->
  forall j, (exists rest, P (j :: rest)) <-> s <= j < s + Z.of_nat (length els).
Proof.
  intros W O j. destruct (wf_vec _ _ W) as (s' & els' & E & S0 & N & F). injection E as <- _ <-. split.
  - intros [rest H]. apply O in H. destruct H as [_ H]. cbn [look vec_of] in H.
    destruct (nthz els (j - s)) eqn:E; [|congruence]. apply nthz_range in E. lia.
  - intros R. destruct (nthz_some els (j - s)) as [e E]; [lia|].
    assert (We : wf n e). { rewrite Forall_forall in F. apply F. eapply nthz_in, E. }
    destruct (wf_place _ _ We) as (q & Lq & Hq). exists q. apply O. split; [cbn [length]; congruence|].
    cbn [look vec_of]. rewrite E. exact Hq.
Qed.

Lemma fits_follows : forall p x P,
  (wf (length p) x \/ (x = nv_empty /\ p <> [])) -> occupied (length p) P x ->
  (fits p x = true <-> follows_in P p).
Proof.
  induction p as [|i r IH]; intros x P W O.
  - split; [intros _; apply follows_nil|]. intros _. destruct x; reflexivity.
  - destruct W as [W|[-> _]].
    2:{ split; [|intros _; apply fits_empty]. intros _ pre k post Ep. left. intros j rest Hq.
        apply O in Hq. destruct Hq as [Lq Hq]. apply Hq. apply (look_empty _ (length r)).
        exact Lq. }
    cbn [length] in W, O. destruct (wf_vec _ _ W) as (s & els & -> & S0 & N & F).
    pose proof (top_range _ _ _ _ W O) as T. pose proof (length_pos _ N) as LP.
    rewrite follows_cons. cbn [fits vec_of]. fold (vec_of s els).
    destruct els as [|a0 els0] eqn:EE; [congruence|]. rewrite <- EE in *. clear EE a0 els0.
    destruct (nthz els (i - s)) as [e|] eqn:E.
    + pose proof (nthz_range _ _ _ E) as R.
      assert (We : wf (length r) e). { rewrite Forall_forall in F. apply F. eapply nthz_in, E. }
      rewrite (IH e (fun q => P (i :: q))).
      * split; [|tauto]. intros H. split; [|exact H]. right.
        destruct (proj2 (T i)) as [rest Hr]; [lia|]. exists i, rest. auto.
      * left. exact We.
      * intros q. rewrite (O (i :: q)). cbn [length look vec_of]. rewrite E. split; intros [A B]; split; auto; lia.
    + assert (R : ~ 0 <= i - s < Z.of_nat (length els)).
      { intros R. destruct (nthz_some _ _ R) as [? ?]. congruence. }
      rewrite Z.eqb_eq. split.
      * intros Ei. split.
        -- right. destruct (proj2 (T (i - 1))) as [rest Hr]; [lia|]. exists (i - 1), rest. auto.
        -- intros pre k post Ep. left. intros j rest Hq.
           assert (s <= i < s + Z.of_nat (length els)) by (apply (T i); eauto). lia.
      * intros [[A|(j & rest & [->| ->] & B)] _].
        -- destruct (proj2 (T s)) as [rest Hr]; [lia|]. exfalso. exact (A _ _ Hr).
        -- assert (s <= i < s + Z.of_nat (length els)) by (apply (T i); eauto). lia.
        -- assert (s <= i - 1 < s + Z.of_nat (length els)) by (apply (T (i - 1)); eauto). lia.
Qed.

(** the value assigned last to a place *)
Fixpoint last_value (q : place) (ops : list (place * val)) (old : option val) : option val :=
  match ops with
  | [] => old
  | (p, v) :: r => last_value q r (if place_eqb q p then Some v else old)
  end.

Lemma fill_run n : forall ops x before,
  indices (S n) (map fst ops) -> started (S n) x -> occupied (S n) (fun q => In q before) x ->
  (in_order before (map fst ops) ->
   exists x', nv_fill ops x = Val x' /\ started (S n) x' /\ (ops <> [] -> wf (S n) x') /\
     py_fill ops (nv_dict x) = Ok (nv_dict x') /\
     forall q, length q = S n -> look q x' = last_value q ops (look q x)) /\
  (~ in_order before (map fst ops) -> nv_fill ops x = Throw).
Proof.
  induction ops as [|[p v] ops IH]; intros x before Hi St O.
  - cbn [map fst in_order nv_fill py_fill last_value]. split; [|tauto]. intros _.
    exists x. split; [reflexivity|]. split; [exact St|]. split; [congruence|]. split; auto.
  - cbn [map fst in_order nv_fill py_fill last_value] in *.
    destruct (Hi p (or_introl eq_refl)) as [Lp Pp].
    pose proof (step n p v x Lp Pp St) as S1. unfold step_ok in S1.
    assert (FF : fits p x = true <-> follows before p).
    { apply (fits_follows p x (fun q => In q before)); rewrite Lp.
      - destruct St as [->|W]; [right|left; exact W]. split; [reflexivity|]. intros ->. discriminate.
      - exact O. }
    destruct (fits p x) eqn:Fx.
    + destruct S1 as (x1 & A & B & C & D). rewrite A. cbn [cbind].
      assert (O1 : occupied (S n) (fun q => In q (before ++ [p])) x1).
      { intros q. rewrite in_app_iff. cbn [In]. split.
        - intros [H|[<-|[]]].
          + destruct (proj1 (O q) H) as [Lq Hq]. split; [exact Lq|]. rewrite (D _ Lq).
            destruct (place_eqb q p); [discriminate|exact Hq].
          + split; [exact Lp|]. rewrite (D _ Lp), (proj2 (place_eqb_iff p p) eq_refl). discriminate.
        - intros [Lq Hq]. rewrite (D _ Lq) in Hq. destruct (place_eqb q p) eqn:E.
          + apply place_eqb_iff in E. right. left. congruence.
          + left. apply (proj2 (O q)). auto. }
      destruct (IH x1 (before ++ [p]) (fun q Hq => Hi q (or_intror Hq)) (or_intror B) O1) as [I1 I2].
      split.
      * intros [_ H]. destruct (I1 H) as (x' & A' & B' & B'' & C' & D').
        exists x'. split; [exact A'|]. split; [exact B'|]. split.
        { intros _. destruct ops as [|o ops']; [|apply B''; discriminate].
          cbn [nv_fill] in A'. injection A' as <-. exact B. }
        split; [rewrite C; exact C'|].
        intros q Lq. rewrite (D' _ Lq), (D _ Lq). reflexivity.
      * intros H. apply I2. intros H'. apply H. split; [apply FF; reflexivity|exact H'].
    + rewrite S1. split; [|reflexivity]. intros [H _]. apply FF in H. discriminate.
Qed.

Lemma occupied_empty n : occupied (S n) (fun q => In q []) nv_empty.
Proof.
  intros q. split; [intros []|]. intros [L H]. apply H. apply (look_empty _ n L).
Qed.

(** ** Reading *)

Lemma reads n : forall q x, length q = n -> wf n x ->
  nv_has q x = Val (match look q x with Some _ => true | None => false end) /\
  nv_get q x = match look q x with Some v => Val v | None => Throw end /\
  array_get (nv_dict x) q = match look q x with Some v => Ok v | None => Err UnavailableIndexError end.
Proof.
  induction n as [|n IH]; intros q x L W.
  - destruct q; [|discriminate]. destruct x as [v|]; [|destruct W]. cbn [nv_has nv_get look nv_dict array_get]. auto.
  - destruct q as [|i r]; [discriminate|]. injection L as L.
    destruct (wf_vec _ _ W) as (s & els & -> & S0 & N & F).
    cbn [nv_has nv_get look vec_of]. fold (vec_of s els). rewrite nv_contains_vec, nv_dict_vec.
    cbn [array_get]. rewrite dget_number, nthz_map.
    destruct (nthz els (i - s)) as [e|] eqn:E; cbn [option_map].
    + pose proof (nthz_range _ _ _ E) as R. rewrite (proj2 (in_size_iff _ _) R), (nv_at_vec _ _ _ _ E).
      cbn [cbind]. assert (We : wf n e). { rewrite Forall_forall in F. apply F. eapply nthz_in, E. }
      destruct (IH r e L We) as (A & B & C). split; [|split; assumption].
      destruct r as [|j r]; [|exact A].
      destruct n; [|discriminate]. destruct e; [|destruct We]. reflexivity.
    + destruct (in_size (i - s) (length els)) eqn:Es.
      { apply in_size_iff in Es. destruct (nthz_some _ _ Es) as [? ?]. congruence. }
      split; [reflexivity|]. split; [|reflexivity].
      unfold nv_at, vec_of at 1. rewrite nv_contains_vec, Es. reflexivity.
Qed.
Lemma reads_empty n q : length q = S n ->
  nv_has q nv_empty = Val false /\ nv_get q nv_empty = Throw /\
  array_get (VDict []) q = Err UnavailableIndexError.
Proof.
  destruct q as [|i r]; [discriminate|]. intros _.
  assert (C : nv_contains i nv_empty = false).
  { unfold nv_contains, nv_empty. destruct (Z.leb_spec 0 i), (Z.leb_spec i (-1)); cbn [andb]; try reflexivity. lia. }
  cbn [nv_has nv_get array_get dget]. rewrite C. split; [reflexivity|]. split; [|reflexivity].
  unfold nv_at. unfold nv_empty at 1. rewrite C. reflexivity.
Qed.

(** ** Lists *)

Fixpoint plain_leaves (x : nvec) : Prop :=
  match x with
  | Cell v => match v with VDict _ => False | _ => True end
  | Vec _ _ els => (fix all (l : list nvec) := match l with [] => True | e :: r => plain_leaves e /\ all r end) els
  end.
Lemma plain_leaves_vec s l els : plain_leaves (Vec s l els) <-> Forall plain_leaves els.
Proof.
  cbn [plain_leaves]. induction els as [|e els IH].
  - split; [constructor|trivial].
  - rewrite IH. split; [intros [A B]; constructor; auto|]. intros H. inversion H; auto.
Qed.

Lemma int_keys_number (l : list val) s : int_keys (number s l) = zrange s (s + Z.of_nat (length l) - 1).
Proof.
  revert s. induction l as [|v l IH]; intros s; cbn [number length].
  - unfold int_keys. cbn [flat_map]. symmetry. apply zrange_empty. lia.
  - rewrite zrange_cons by lia. unfold int_keys in *. cbn [flat_map fst app]. rewrite IH. do 2 f_equal. lia.
Qed.
Lemma keys_number (l : list val) s : forallb (fun kv => is_int_key (fst kv)) (number s l) = true.
Proof. revert s. induction l as [|v l IH]; intros s; cbn [number forallb fst is_int_key andb]; [reflexivity|apply IH]. Qed.
Lemma zmin_up l : forall a, (forall z, In z l -> a <= z) -> zmin l a = a.
Proof.
  unfold zmin. induction l as [|x l IH]; intros a H; cbn [fold_left]; [reflexivity|].
  rewrite Z.min_l by (apply H; left; reflexivity). apply IH. intros z Hz. apply H. now right.
Qed.
Lemma zmax_range : forall n a, zmax (zrange (a + 1) (a + Z.of_nat n)) a = a + Z.of_nat n.
Proof.
  unfold zmax. induction n as [|n IH]; intros a.
  - rewrite zrange_empty by lia. cbn [fold_left]. lia.
  - rewrite zrange_cons by lia. cbn [fold_left]. rewrite Z.max_r by lia.
    replace (a + Z.of_nat (S n)) with (a + 1 + Z.of_nat n) by lia. apply IH.
Qed.
Lemma zrange_in a b z : In z (zrange a b) <-> a <= z <= b.
Proof.
  unfold zrange. rewrite in_map_iff. split.
  - intros (k & <- & H). apply in_seq in H. lia.
  - intros H. exists (Z.to_nat (z - a)). split; [lia|]. apply in_seq. lia.
Qed.
Lemma map_number (l : list val) s (f : Z -> val) : (forall i v, nthz l (i - s) = Some v -> f i = v) ->
  map f (zrange s (s + Z.of_nat (length l) - 1)) = l.
Proof.
  revert s. induction l as [|v l IH]; intros s H; cbn [length].
  - rewrite zrange_empty by lia. reflexivity.
  - rewrite zrange_cons by lia. cbn [map]. f_equal.
    + apply H. rewrite Z.sub_diag. reflexivity.
    + rewrite <- (IH (s + 1)) at 2.
      * do 2 f_equal. lia.
      * intros i w Hw. apply H. pose proof (nthz_range _ _ _ Hw) as R. apply nthz_nth in Hw.
        unfold nthz. destruct (Z.ltb_spec (i - s) 0); [lia|].
        replace (Z.to_nat (i - s)) with (S (Z.to_nat (i - (s + 1)))) by lia. exact Hw.
Qed.
Lemma as_array_number (l : list val) s : l <> [] -> as_array (number s l) = Ok (VList l).
Proof.
  intros N. unfold as_array. rewrite keys_number, int_keys_number. pose proof (length_pos _ N) as LP.
  rewrite zrange_cons by lia.
  rewrite zmin_up by (intros z Hz; apply zrange_in in Hz; lia).
  replace (s + Z.of_nat (length l) - 1) with (s + Z.of_nat (length l - 1)) by lia.
  rewrite zmax_range. replace (s + Z.of_nat (length l - 1)) with (s + Z.of_nat (length l) - 1) by lia.
  do 2 f_equal. apply map_number. intros i v Hv. rewrite dget_number, Hv. reflexivity.
Qed.
Lemma convert_numbered (l : list val) s l' : Forall2 (fun v w => convert v = Ok w) l l' ->
  array_dict_to_list (number s l) = Ok (number s l').
Proof.
  intros H. revert s. induction H as [|v w l l' A B IH]; intros s; cbn [number array_dict_to_list]; [reflexivity|].
  rewrite A. cbn [bind]. rewrite IH. reflexivity.
Qed.
Lemma lists n : forall x, wf n x -> plain_leaves x -> convert (nv_dict x) = Ok (nv_list x).
Proof.
  induction n as [|n IH]; intros x W P.
  - destruct x as [v|]; [|destruct W]. cbn [plain_leaves] in P. cbn [nv_dict nv_list].
    destruct v; try reflexivity. destruct P.
  - destruct (wf_vec _ _ W) as (s & els & -> & S0 & N & F). apply plain_leaves_vec in P.
    rewrite nv_dict_vec, convert_dict.
    rewrite (convert_numbered _ _ (map nv_list els)).
    + cbn [bind]. rewrite as_array_number; [reflexivity|]. destruct els; [congruence|discriminate].
    + clear W N. induction els as [|e els IHe]; cbn [map]; constructor.
      * inversion F; inversion P; subst. apply IH; assumption.
      * inversion F; inversion P; subst. apply IHe; assumption.
Qed.
Lemma look_plain n : forall x, wf n x ->
  (forall q v, length q = n -> look q x = Some v -> match v with VDict _ => False | _ => True end) -> plain_leaves x.
Proof.
  induction n as [|n IH]; intros x W H.
  - destruct x as [v|]; [|destruct W]. exact (H [] v eq_refl eq_refl).
  - destruct (wf_vec _ _ W) as (s & els & -> & S0 & N & F). apply plain_leaves_vec.
    rewrite Forall_forall in *. intros e He. apply IH; [auto|]. intros q v L Hq.
    apply In_nth_error in He. destruct He as [k He].
    apply (H (s + Z.of_nat k :: q) v); [cbn [length]; congruence|]. cbn [look vec_of].
    unfold nthz. destruct (Z.ltb_spec (s + Z.of_nat k - s) 0); [lia|].
    replace (Z.to_nat (s + Z.of_nat k - s)) with k by lia. rewrite He. exact Hq.
Qed.

(** ** [prepare] in front of a loop *)

Lemma replace_replace {A} k (x y : A) l : replace k x (replace k y l) = replace k x l.
Proof. revert k. induction l as [|z l IH]; intros [|k]; cbn [replace]; congruence. Qed.

Lemma prepare_started n i x : 0 <= i -> started (S n) x ->
  nv_prepare i x = Throw \/
  exists s els sub, nv_prepare i x = Val (vec_of s els) /\ 0 <= s /\ els <> [] /\
    nthz els (i - s) = Some sub /\ (sub = nv_empty \/ wf n sub).
Proof.
  intros Pi [->|W].
  - right. exists i, [nv_empty], nv_empty. unfold nv_prepare.
    replace (nv_contains i nv_empty) with false.
    2:{ symmetry. unfold nv_contains, nv_empty. apply andb_false_iff. right. apply Z.leb_gt. lia. }
    rewrite nv_set_empty, Z.sub_diag. repeat split; auto. discriminate.
  - destruct (wf_vec _ _ W) as (s & els & -> & S0 & N & F). unfold nv_prepare. rewrite nv_contains_vec.
    destruct (in_size (i - s) (length els)) eqn:Es.
    + apply in_size_iff in Es. destruct (nthz_some _ _ Es) as [sub E]. right. exists s, els, sub.
      repeat split; auto. right. rewrite Forall_forall in F. apply F. eapply nthz_in, E.
    + rewrite (nv_set_vec _ _ _ _ S0 N), Es.
      destruct (Z.eqb_spec i (s + Z.of_nat (length els))); [|left; reflexivity].
      right. exists s, (els ++ [nv_empty]), nv_empty. repeat split; auto.
      * intros H. apply app_eq_nil in H. destruct H. discriminate.
      * rewrite nthz_snoc. destruct (Z.eqb_spec (i - s) (Z.of_nat (length els))); [reflexivity|lia].
Qed.

Lemma prepare_assign : forall pre n r v x,
  r <> [] -> length (pre ++ r) = S n -> Forall (fun i => 0 <= i) (pre ++ r) -> started (S n) x ->
  (let* x1 := nv_prepare_path pre x in nv_assign (pre ++ r) v x1) = nv_assign (pre ++ r) v x.
Proof.
  induction pre as [|i pre IH]; intros n r v x Nr L P St; [reflexivity|].
  cbn [app length] in *. injection L as L. inversion_clear P as [|? ? Pi Pr].
  assert (N2 : pre ++ r <> []) by (intros H; apply app_eq_nil in H; tauto).
  destruct n as [|n]; [destruct (pre ++ r); [congruence|discriminate]|].
  cbn [nv_prepare_path]. rewrite (nv_assign_more _ _ _ x N2).
  destruct (prepare_started (S n) i x Pi St) as [->|(s & els & sub & -> & S0 & N & E & Ws)]; [reflexivity|].
  cbn [cbind]. rewrite (nv_at_vec _ _ _ _ E). cbn [cbind].
  rewrite <- (IH n r v sub Nr L Pr Ws).
  destruct (nv_prepare_path pre sub) as [sub1| |]; cbn [cbind]; [|reflexivity|reflexivity].
  rewrite nv_put_vec, (nv_assign_more _ _ _ _ N2). unfold nv_prepare. rewrite nv_contains_vec, replace_length.
  pose proof (nthz_range _ _ _ E) as R. rewrite (proj2 (in_size_iff _ _) R). cbn [cbind].
  assert (E1 : nthz (replace (Z.to_nat (i - s)) sub1 els) (i - s) = Some sub1).
  { rewrite nthz_replace by exact R. now rewrite Z.eqb_refl. }
  rewrite (nv_at_vec _ _ _ _ E1). cbn [cbind].
  destruct (nv_assign (pre ++ r) v sub1); cbn [cbind]; try reflexivity.
  rewrite !nv_put_vec, replace_replace. reflexivity.
Qed.

Lemma nv_fill_app a b x : nv_fill (a ++ b) x = (let* x1 := nv_fill a x in nv_fill b x1).
Proof.
  revert x. induction a as [|[p v] a IH]; intros x; [reflexivity|]. cbn [app nv_fill].
  destruct (nv_assign p v x); cbn [cbind]; auto.
Qed.
Lemma fill_started n : forall ops x x', indices (S n) (map fst ops) -> started (S n) x -> nv_fill ops x = Val x' ->
  started (S n) x'.
Proof.
  induction ops as [|[p v] ops IH]; intros x x' Hi St H; cbn [nv_fill map fst] in *; [congruence|].
  destruct (Hi p (or_introl eq_refl)) as [Lp Pp].
  pose proof (step n p v x Lp Pp St) as S1. unfold step_ok in S1. destruct (fits p x).
  - destruct S1 as (x1 & A & B & _ & _). rewrite A in H. cbn [cbind] in H.
    apply (IH x1 x' (fun q Hq => Hi q (or_intror Hq)) (or_intror B) H).
  - rewrite S1 in H. discriminate.
Qed.
Lemma rows_fill n : forall rows x,
  indices (S n) (map fst (flat_map row_ops rows)) -> started (S n) x ->
  (forall row, In row rows -> snd row <> [] /\ forall o, In o (snd row) -> fst o <> []) ->
  nv_rows rows x = nv_fill (flat_map row_ops rows) x.
Proof.
  induction rows as [|[pre ops] rows IH]; intros x Hi St Hn; [reflexivity|].
  cbn [nv_rows flat_map]. rewrite nv_fill_app. unfold row_ops at 1. cbn [fst snd].
  destruct (Hn (pre, ops) (or_introl eq_refl)) as [N1 N2]. cbn [snd] in N1, N2.
  cbn [flat_map] in Hi. unfold row_ops at 1 in Hi. cbn [fst snd] in Hi. rewrite map_app in Hi.
  assert (Q : (let* x1 := nv_prepare_path pre x in nv_fill (map (fun o => (pre ++ fst o, snd o)) ops) x1)
              = nv_fill (map (fun o => (pre ++ fst o, snd o)) ops) x).
  { destruct ops as [|[r v] ops]; [congruence|]. cbn [map fst snd nv_fill] in *.
    destruct (Hi (pre ++ r)) as [L P]; [apply in_or_app; left; left; reflexivity|].
    rewrite <- (prepare_assign pre n r v x).
    - destruct (nv_prepare_path pre x); reflexivity.
    - exact (N2 (r, v) (or_introl eq_refl)).
    - exact L.
    - exact P.
    - exact St. }
  rewrite <- Q. destruct (nv_prepare_path pre x) as [x1| |] eqn:E1; cbn [cbind] in *; [|reflexivity|reflexivity].
  destruct (nv_fill (map (fun o => (pre ++ fst o, snd o)) ops) x1) as [x2| |] eqn:E2; cbn [cbind]; [|reflexivity|reflexivity].
  apply IH.
  - intros q Hq. apply Hi, in_or_app. now right.
  - symmetry in Q. refine (fill_started n _ _ _ _ St Q). intros q Hq. apply Hi, in_or_app. now left.
  - intros row Hr. apply Hn. now right.
Qed.

(** ** Loops *)

Lemma in_order_ext : forall ps b b', (forall q, In q b <-> In q b') -> in_order b ps -> in_order b' ps.
Proof.
  induction ps as [|p ps IH]; intros b b' E H; cbn [in_order] in *; [exact Logic.I|].
  destruct H as [A B]. split.
  - exact (follows_ext (fun q => In q b) (fun q => In q b') p E A).
  - refine (IH _ _ _ B). intros q. rewrite !in_app_iff, (E q). tauto.
Qed.
Lemma in_order_app : forall ps b qs, in_order b (ps ++ qs) <-> in_order b ps /\ in_order (b ++ ps) qs.
Proof.
  induction ps as [|p ps IH]; intros b qs; cbn [app in_order].
  - rewrite app_nil_r. tauto.
  - rewrite IH, <- app_assoc. cbn [app]. tauto.
Qed.
Lemma in_order_sub i : forall ps b b', top_follows (fun q => In q b) i -> (forall q, In (i :: q) b <-> In q b') ->
  in_order b' ps -> in_order b (map (cons i) ps).
Proof.
  induction ps as [|p ps IH]; intros b b' T E H; cbn [map in_order] in *; [exact Logic.I|].
  destruct H as [A B]. split.
  - apply (follows_cons (fun q => In q b)). split; [exact T|].
    exact (follows_ext (fun q => In q b') (fun q => In (i :: q) b) p (fun q => iff_sym (E q)) A).
  - apply (IH _ (b' ++ [p])); [|intros q|exact B].
    + right. exists i, p. split; [auto|]. apply in_or_app. right. left. reflexivity.
    + rewrite !in_app_iff, (E q). cbn [In]. split; (intros [H|[H|[]]]; [auto|]).
      * injection H as <-. auto.
      * subst q. auto.
Qed.
Lemma in_loop_places a b body q : In q (loop_places (Loop a b body)) <->
  exists i r, q = i :: r /\ a <= i <= b /\ In r (loop_places (body i)).
Proof.
  cbn [loop_places]. rewrite in_flat_map. split.
  - intros (i & Hi & H). apply in_map_iff in H. destruct H as (r & <- & H). exists i, r.
    apply zrange_in in Hi. auto.
  - intros (i & r & -> & Hi & H). exists i. split; [apply zrange_in; exact Hi|]. apply in_map_iff. eauto.
Qed.
Lemma turning_place l : turning l -> exists p, In p (loop_places l).
Proof.
  induction l as [|a b body IH]; intros T.
  - exists []. left. reflexivity.
  - destruct T as [A B]. destruct (IH a (B a ltac:(lia))) as [p Hp]. exists (a :: p).
    apply in_loop_places. exists a, p. repeat split; auto; lia.
Qed.
Lemma regular_indices n : forall l, regular n l -> indices n (loop_places l).
Proof.
  induction n as [|n IH]; intros [|a b body] H; try destruct H; intros p Hp.
  - destruct Hp as [<-|[]]. split; [reflexivity|constructor].
  - apply in_loop_places in Hp. destruct Hp as (i & r & -> & Hi & Hr).
    destruct (H0 i Hi) as [R _]. destruct (IH _ R r Hr) as [L P]. split; [cbn [length]; congruence|].
    constructor; [lia|exact P].
Qed.
Lemma loop_rows_in_order k : forall a b body before,
  b + 1 - a = Z.of_nat k ->
  (forall i, a <= i <= b -> turning (body i) /\ in_order [] (loop_places (body i))) ->
  (forall j r, In (j :: r) before -> j < a) ->
  (before = [] \/ exists r, In ((a - 1) :: r) before) ->
  in_order before (loop_places (Loop a b body)).
Proof.
  induction k as [|k IH]; intros a b body before Hk Hb Hlt Hn.
  - cbn [loop_places]. rewrite zrange_empty by lia. exact Logic.I.
  - cbn [loop_places]. rewrite zrange_cons by lia. cbn [flat_map]. apply in_order_app. split.
    + apply (in_order_sub a _ _ []); [| |apply Hb; lia].
      * destruct Hn as [->|[r Hr]]; [left; intros j rest []|].
        right. exists (a - 1), r. auto.
      * intros q. split; [|intros []]. intros Hq. apply Hlt in Hq. lia.
    + change (flat_map (fun i => map (cons i) (loop_places (body i))) (zrange (a + 1) b))
        with (loop_places (Loop (a + 1) b body)).
      apply IH.
      * lia.
      * intros i Hi. apply Hb. lia.
      * intros j r Hj. apply in_app_iff in Hj. destruct Hj as [Hj|Hj]; [apply Hlt in Hj; lia|].
        apply in_map_iff in Hj. destruct Hj as (r' & E & _). injection E as <- _. lia.
      * right. destruct (Hb a ltac:(lia)) as [T _]. destruct (turning_place _ T) as [p Hp].
        exists p. apply in_or_app. right. apply in_map_iff. exists p. split; [|exact Hp]. f_equal. lia.
Qed.
Lemma regular_in_order n : forall l, regular n l -> in_order [] (loop_places l).
Proof.
  induction n as [|n IH]; intros [|a b body] H; try destruct H.
  - cbn [loop_places in_order]. split; [|exact Logic.I]. apply follows_nil with (P := fun q => In q []).
  - destruct (Z.ltb_spec (b + 1) a).
    + cbn [loop_places]. rewrite zrange_empty by lia. exact Logic.I.
    + apply (loop_rows_in_order (Z.to_nat (b + 1 - a))).
      * lia.
      * intros i Hi. destruct (H0 i Hi) as [R T]. split; [exact T|]. apply IH, R.
      * intros j r [].
      * left. reflexivity.
Qed.

(** column by column *)
Definition column_places (r0 r1 c0 c1 : Z) : list place :=
  flat_map (fun j => map (fun i => [i; j]) (zrange r0 r1)) (zrange c0 c1).
Lemma column_in_order k : forall r0 r1 c0 c j before,
  c + 1 - j = Z.of_nat k -> c0 <= j ->
  (forall q, In q before <-> exists i j', q = [i; j'] /\ r0 <= i <= r1 /\ c0 <= j' < j) ->
  in_order before (column_places r0 r1 j c).
Proof.
  induction k as [|k IH]; intros r0 r1 c0 c j before Hk Hj HB; unfold column_places.
  - rewrite (zrange_empty j c) by lia. exact Logic.I.
  - rewrite (zrange_cons j c) by lia. cbn [flat_map]. apply in_order_app. split.
    + assert (R : forall m a b, r1 + 1 - a = Z.of_nat m -> r0 <= a ->
        (forall q, In q b <-> exists i j', q = [i; j'] /\ ((r0 <= i <= r1 /\ c0 <= j' < j) \/ (r0 <= i < a /\ j' = j))) ->
        in_order b (map (fun i => [i; j]) (zrange a r1))).
      { induction m as [|m IHm]; intros a b Hm Ha Hb.
        - rewrite zrange_empty by lia. exact Logic.I.
        - rewrite zrange_cons by lia. cbn [map in_order]. split.
          + intros [|i0 [|i1 pre]] i post E; cbn [app] in E.
            * injection E as <- <-. cbn [app]. destruct (Z.eq_dec j c0) as [->|].
              -- destruct (Z.eq_dec a r0) as [->|].
                 ++ left. intros j' rest Hq. apply Hb in Hq. destruct Hq as (? & ? & _ & [?|?]); lia.
                 ++ right. exists (a - 1), [c0]. split; [auto|]. apply Hb. exists (a - 1), c0.
                    split; [reflexivity|]. right. lia.
              -- right. exists a, [c0]. split; [auto|]. apply Hb. exists a, c0. split; [reflexivity|]. left. lia.
            * injection E as <- <- _. cbn [app]. destruct (Z.eq_dec j c0) as [->|].
              -- left. intros j' rest Hq. apply Hb in Hq. destruct Hq as (i' & ? & E & [?|?]); [lia|].
                 injection E as <- _ _. lia.
              -- right. exists (j - 1), []. split; [auto|]. apply Hb. exists a, (j - 1). split; [reflexivity|].
                 left. lia.
            * exfalso. injection E as _ _ E. destruct pre; discriminate.
          + apply (IHm (a + 1) (b ++ [[a; j]])); [lia|lia|].
            intros q. rewrite in_app_iff, (Hb q). cbn [In]. split.
            * intros [(i & j' & -> & D)|[<-|[]]].
              -- exists i, j'. split; [reflexivity|]. destruct D; [left|right]; lia.
              -- exists a, j. split; [reflexivity|]. right. lia.
            * intros (i & j' & -> & [D|[D ->]]).
              -- left. exists i, j'. split; [reflexivity|]. left. lia.
              -- destruct (Z.eq_dec i a) as [->|]; [right; left; reflexivity|].
                 left. exists i, j. split; [reflexivity|]. right. lia. }
      destruct (Z.leb_spec r0 (r1 + 1)).
      * apply (R (Z.to_nat (r1 + 1 - r0)) r0); [lia|lia|]. intros q. rewrite (HB q). split.
        -- intros (i & j' & -> & A). exists i, j'. split; [reflexivity|]. left. exact A.
        -- intros (i & j' & -> & [A|A]); [|lia]. exists i, j'. split; [reflexivity|]. exact A.
      * rewrite zrange_empty by lia. exact Logic.I.
    + apply (IH r0 r1 c0 c (j + 1)); [lia|lia|]. intros q. rewrite in_app_iff, (HB q), in_map_iff. split.
      * intros [(i & j' & -> & A & B)|(i & <- & A)].
        -- exists i, j'. split; [reflexivity|]. lia.
        -- apply zrange_in in A. exists i, j. split; [reflexivity|]. lia.
      * intros (i & j' & -> & A & B). destruct (Z.eq_dec j' j) as [->|].
        -- right. exists i. split; [reflexivity|]. apply zrange_in, A.
        -- left. exists i, j'. split; [reflexivity|]. lia.
Qed.

(** ** Matrix2d *)

Lemma u64_small z : 0 <= z < 2 ^ 64 -> u64 z = z.
Proof. intros H. unfold u64. now apply Z.mod_small. Qed.
Lemma i32_small z : 0 <= z < 2 ^ 31 -> i32 z = z.
Proof.
  intros H. unfold i32. rewrite Z.mod_small by lia. destruct (Z.ltb_spec z (2 ^ 31)); lia.
Qed.
Lemma cmapM_map {A B} (f : A -> cpp B) g l : (forall a, In a l -> f a = Val (g a)) -> cmapM f l = Val (map g l).
Proof.
  induction l as [|a l IH]; intros H; cbn [cmapM map]; [reflexivity|].
  rewrite (H a (or_introl eq_refl)). cbn [cbind]. rewrite IH; [reflexivity|]. intros b Hb. apply H. now right.
Qed.
Lemma map_zrange {A} (l : list A) s (h : A -> val) (g : Z -> val) :
  (forall i e, nthz l (i - s) = Some e -> h e = g i) ->
  number s (map h l) = map (fun i => (KInt i, g i)) (zrange s (s + Z.of_nat (length l) - 1)).
Proof.
  revert s. induction l as [|a l IH]; intros s H; cbn [length map number].
  - rewrite zrange_empty by lia. reflexivity.
  - rewrite zrange_cons by lia. cbn [map]. f_equal.
    + f_equal. apply H. rewrite Z.sub_diag. reflexivity.
    + rewrite IH.
      * do 2 f_equal. lia.
      * intros i e He. apply H. pose proof (nthz_range _ _ _ He) as R. apply nthz_nth in He.
        unfold nthz. destruct (Z.ltb_spec (i - s) 0); [lia|].
        replace (Z.to_nat (i - s)) with (S (Z.to_nat (i - (s + 1)))) by lia. exact He.
Qed.
Lemma map_zrange_list {A} (l : list A) s (h : A -> val) (g : Z -> val) :
  (forall i e, nthz l (i - s) = Some e -> h e = g i) ->
  map h l = map g (zrange s (s + Z.of_nat (length l) - 1)).
Proof.
  intros H. pose proof (map_zrange l s h g H) as E. apply (f_equal (map snd)) in E.
  rewrite map_map in E. change (fun x : Z => snd (KInt x, g x)) with (fun x : Z => g x) in E.
  transitivity (map snd (number s (map h l))); [|exact E]. clear. generalize s. induction l; intros; cbn [map number snd]; congruence.
Qed.

Section Matrix.
  Variables (r0 r1 c0 c1 : Z) (sh : shape).
  Hypothesis size : matrix_size sh r0 r1 c0 c1.
  Let cols := c1 - c0 + 1.
  Let pos (i j : Z) : Z := (i - r0) * cols + (j - c0).
  Let rect (i j : Z) : Prop := r0 <= i <= r1 /\ c0 <= j <= c1.

  Definition mat_ok (m : matrix) : Prop :=
    Z.of_nat (length (m_data m)) = (r1 - r0 + 1) * cols /\ m_rows m = r1 - r0 + 1 /\ m_cols m = cols /\
    m_row0 m = r0 /\ m_col0 m = c0 /\ m_tri m = is_triangle sh /\ m_lower m = is_lower sh.

  Lemma init_ok zero : exists m,
    mat_init zero r0 r1 c0 c1 (is_triangle sh) (is_lower sh) = Val m /\ mat_ok m.
  Proof.
    destruct size as (A & B & C & D & E & _). unfold mat_init.
    rewrite !(u64_small r0), !(u64_small r1), !(u64_small c0), !(u64_small c1) by lia.
    rewrite !(u64_small (r1 - r0 + 1)), !(u64_small (c1 - c0 + 1)) by lia.
    assert (0 < (r1 - r0 + 1) * (c1 - c0 + 1)) by nia.
    rewrite !(u64_small ((r1 - r0 + 1) * _)) by lia.
    unfold max_size. destruct (Z.ltb_spec (2 ^ 60 - 1) ((r1 - r0 + 1) * (c1 - c0 + 1))); [lia|].
    eexists; split; [reflexivity|]. unfold mat_ok. cbn [m_data m_rows m_cols m_row0 m_col0 m_tri m_lower].
    rewrite repeat_length. repeat split; auto. fold cols. subst cols. lia.
  Qed.

  Lemma pos_range i j : rect i j -> 0 <= pos i j < (r1 - r0 + 1) * cols.
  Proof. intros [A B]. unfold pos. subst cols. nia. Qed.
  Lemma pos_inj i j i' j' : rect i j -> rect i' j' -> pos i j = pos i' j' -> i = i' /\ j = j'.
  Proof.
    intros [A B] [A' B'] E. unfold pos in E. subst cols.
    assert (i = i').
    { destruct (Z.lt_trichotomy i i') as [H|[H|H]]; [|exact H|]; exfalso; nia. }
    subst i'. split; [reflexivity|]. lia.
  Qed.
  Lemma mat_pos_ok m i j : mat_ok m -> rect i j -> mat_pos m i j = pos i j.
  Proof.
    intros (A & B & C & D & E & _) R. destruct size as (S1 & S2 & S3 & S4 & S5 & _).
    pose proof (pos_range _ _ R) as P. destruct R as [R1 R2].
    unfold mat_pos. rewrite C, D, E, (u64_small i), (u64_small j) by lia. apply u64_small.
    split; [apply P|]. eapply Z.lt_trans; [apply P|]. eapply Z.lt_trans; [exact S5|reflexivity].
  Qed.
  Lemma mat_get_ok m i j : mat_ok m -> rect i j ->
    mat_get i j m = match nthz (m_data m) (pos i j) with Some v => Val v | None => Undefined end.
  Proof.
    intros O R. unfold mat_get. rewrite (mat_pos_ok _ _ _ O R). pose proof (pos_range _ _ R) as P.
    destruct O as (A & _). rewrite A. destruct (Z.ltb_spec (pos i j) ((r1 - r0 + 1) * cols)); [|lia].
    unfold nthz. destruct (Z.ltb_spec (pos i j) 0); [lia|]. reflexivity.
  Qed.
  Lemma mat_set_ok m i j v : mat_ok m -> rect i j -> exists m',
    mat_set i j v m = Val m' /\ mat_ok m' /\ m_accessed m' = true /\
    forall a b, rect a b ->
      nthz (m_data m') (pos a b) = if place_eqb [a; b] [i; j] then Some v else nthz (m_data m) (pos a b).
  Proof.
    intros O R. unfold mat_set. rewrite (mat_pos_ok _ _ _ O R). pose proof (pos_range _ _ R) as P.
    pose proof O as (A & B). rewrite A. destruct (Z.ltb_spec (pos i j) ((r1 - r0 + 1) * cols)); [|lia].
    eexists; split; [reflexivity|]. split; [|split].
    - unfold mat_ok. cbn [m_data m_rows m_cols m_row0 m_col0 m_tri m_lower]. rewrite replace_length. auto.
    - reflexivity.
    - intros a b Hab. cbn [m_data]. rewrite nthz_replace by lia. rewrite !place_eqb_cons.
      change (place_eqb [] []) with true. rewrite andb_true_r.
      destruct (Z.eqb_spec (pos a b) (pos i j)) as [E|N].
      + apply (pos_inj _ _ _ _ Hab R) in E. destruct E as [-> ->]. rewrite !Z.eqb_refl. reflexivity.
      + destruct (Z.eqb_spec a i) as [->|]; [|reflexivity]. destruct (Z.eqb_spec b j) as [->|]; [congruence|reflexivity].
  Qed.
  Lemma mat_fill_ok : forall ops m, mat_ok m -> (forall i j v, In (i, j, v) ops -> rect i j) -> exists m',
    mat_fill ops m = Val m' /\ mat_ok m' /\ (ops <> [] -> m_accessed m' = true) /\
    forall a b, rect a b ->
      nthz (m_data m') (pos a b) = last_value [a; b] (matrix_places ops) (nthz (m_data m) (pos a b)).
  Proof.
    induction ops as [|[[i j] v] ops IH]; intros m O H.
    - exists m. cbn [mat_fill]. split; [reflexivity|]. split; [exact O|]. split; [congruence|]. reflexivity.
    - destruct (mat_set_ok m i j v O (H i j v (or_introl eq_refl))) as (m1 & A & B & C & D).
      destruct (IH m1 B (fun a b w Hw => H a b w (or_intror Hw))) as (m' & A' & B' & C' & D').
      exists m'. cbn [mat_fill]. rewrite A. cbn [cbind]. split; [exact A'|]. split; [exact B'|]. split.
      + intros _. destruct ops as [|o ops']; [|apply C'; discriminate]. cbn [mat_fill] in A'. congruence.
      + intros a b Hab. rewrite (D' _ _ Hab), (D _ _ Hab). unfold matrix_places. cbn [map fst snd last_value].
        reflexivity.
  Qed.

  Let lo (i : Z) : Z := match sh with Upper => c0 + (i - r0) | _ => c0 end.
  Let hi (i : Z) : Z := match sh with Lower => c0 + (i - r0) | _ => c1 end.
  Lemma cell_lohi i j : cell sh r0 r1 c0 c1 i j <-> r0 <= i <= r1 /\ lo i <= j <= hi i.
  Proof. unfold cell, lo, hi. destruct sh; tauto. Qed.
  Lemma lohi i : r0 <= i <= r1 -> c0 <= lo i <= hi i /\ hi i <= c1.
  Proof. destruct size as (S1 & S2 & S3 & S4 & S5 & S6). unfold lo, hi. intros H. destruct sh; lia. Qed.
  Lemma col_range m i : mat_ok m -> r0 <= i <= r1 -> mat_col_start m i = lo i /\ mat_col_last m i = hi i.
  Proof.
    destruct size as (S1 & S2 & S3 & S4 & S5 & S6).
    intros (A & B & C & D & E & F & G) Hi. unfold mat_col_start, mat_col_last. rewrite C, D, E, F, G.
    subst cols. rewrite (u64_small i) by lia. rewrite (i32_small c0) by lia.
    rewrite (u64_small (c0 + (c1 - c0 + 1) - 1)) by lia. rewrite (i32_small (c0 + (c1 - c0 + 1) - 1)) by lia.
    unfold lo, hi. destruct sh; cbn [is_triangle is_lower negb orb].
    - lia.
    - rewrite (u64_small (c0 + (i - r0))), (i32_small (c0 + (i - r0))) by lia. lia.
    - rewrite (u64_small (c0 + (i - r0))), (i32_small (c0 + (i - r0))) by lia. lia.
  Qed.
  Lemma row_range m : mat_ok m -> mat_row_start m = r0 /\ mat_row_last m = r1.
  Proof.
    destruct size as (S1 & S2 & S3 & S4 & S5 & S6).
    intros (A & B & C & D & E & F & G). unfold mat_row_start, mat_row_last. rewrite B, D.
    rewrite (u64_small (r0 + (r1 - r0 + 1) - 1)), !i32_small by lia. lia.
  Qed.
  Lemma row_ok m g i : mat_ok m -> (forall a b, cell sh r0 r1 c0 c1 a b -> nthz (m_data m) (pos a b) = Some (g a b)) ->
    r0 <= i <= r1 -> mat_row m i = Val (map (fun j => (j, g i j)) (zrange (lo i) (hi i))).
  Proof.
    intros O G Hi. unfold mat_row. destruct (col_range m i O Hi) as [-> ->].
    apply cmapM_map. intros j Hj. apply zrange_in in Hj. pose proof (lohi i Hi) as L.
    rewrite (mat_get_ok m i j O) by (split; lia).
    rewrite (G i j) by (apply cell_lohi; lia). reflexivity.
  Qed.
  Lemma mat_out m g : mat_ok m -> (forall a b, cell sh r0 r1 c0 c1 a b -> nthz (m_data m) (pos a b) = Some (g a b)) ->
    mat_dict m = Val (VDict (map (fun i => (KInt i, VDict (map (fun j => (KInt j, g i j)) (zrange (lo i) (hi i))))) (zrange r0 r1))) /\
    mat_list m = Val (VList (map (fun i => VList (map (fun j => g i j) (zrange (lo i) (hi i)))) (zrange r0 r1))).
  Proof.
    intros O G. unfold mat_dict, mat_list. destruct (row_range m O) as [-> ->]. split.
    - rewrite (cmapM_map _ (fun i => (KInt i, VDict (map (fun j => (KInt j, g i j)) (zrange (lo i) (hi i)))))).
      + reflexivity.
      + intros i Hi. apply zrange_in in Hi. rewrite (row_ok m g i O G Hi). cbn [cbind]. rewrite map_map. reflexivity.
    - rewrite (cmapM_map _ (fun i => VList (map (fun j => g i j) (zrange (lo i) (hi i))))).
      + reflexivity.
      + intros i Hi. apply zrange_in in Hi. rewrite (row_ok m g i O G Hi). cbn [cbind]. rewrite map_map. reflexivity.
  Qed.

  (** a vector with the same range *)
  Lemma region n a b s els : wf (S n) (vec_of s els) -> a <= b ->
    (forall i, (exists e, nthz els (i - s) = Some e) <-> a <= i <= b) -> s = a /\ s + Z.of_nat (length els) - 1 = b.
  Proof.
    intros W H E. destruct (wf_vec _ _ W) as (s' & els' & Q & S0 & N & F). injection Q as <- _ <-.
    pose proof (length_pos _ N) as LP.
    assert (X : forall i, s <= i < s + Z.of_nat (length els) <-> a <= i <= b).
    { intros i. rewrite <- (E i). split.
      - intros R. apply nthz_some. lia.
      - intros [e He]. apply nthz_range in He. lia. }
    assert (a <= s <= b) by (apply X; lia). assert (s <= a < s + Z.of_nat (length els)) by (apply X; lia).
    assert (s <= b < s + Z.of_nat (length els)) by (apply X; lia).
    assert (a <= s + Z.of_nat (length els) - 1 <= b) by (apply X; lia). lia.
  Qed.
  Lemma vec_out x g : wf 2 x ->
    (forall i j, look [i; j] x <> None <-> cell sh r0 r1 c0 c1 i j) ->
    (forall i j, cell sh r0 r1 c0 c1 i j -> look [i; j] x = Some (g i j)) ->
    nv_dict x = VDict (map (fun i => (KInt i, VDict (map (fun j => (KInt j, g i j)) (zrange (lo i) (hi i))))) (zrange r0 r1)) /\
    nv_list x = VList (map (fun i => VList (map (fun j => g i j) (zrange (lo i) (hi i)))) (zrange r0 r1)).
  Proof.
    intros W C G. destruct (wf_vec _ _ W) as (s & els & -> & S0 & N & F).
    assert (RL : r0 <= r1) by (destruct size; lia).
    assert (X : s = r0 /\ s + Z.of_nat (length els) - 1 = r1).
    { apply (region 1); auto. intros i. split.
      - intros [e He]. assert (We : wf 1 e). { rewrite Forall_forall in F. apply F. eapply nthz_in, He. }
        destruct (wf_place _ _ We) as ([|j [|? ?]] & Lq & Hq); try discriminate.
        assert (K : cell sh r0 r1 c0 c1 i j). { apply C. cbn [look vec_of]. rewrite He. exact Hq. }
        apply cell_lohi in K. lia.
      - intros Hi. pose proof (lohi i Hi) as L.
        assert (K : look [i; lo i] (vec_of s els) <> None). { apply C, cell_lohi. lia. }
        cbn [look vec_of] in K. destruct (nthz els (i - s)) as [e|]; [eauto|congruence]. }
    destruct X as [X1 X2]. rewrite <- X2. rewrite <- X1.
    assert (Y : forall i e, nthz els (i - s) = Some e ->
              exists s' els', e = vec_of s' els' /\ s' = lo i /\ s' + Z.of_nat (length els') - 1 = hi i /\
                forall j v, nthz els' (j - s') = Some v -> v = Cell (g i j)).
    { intros i e He. assert (We : wf 1 e). { rewrite Forall_forall in F. apply F. eapply nthz_in, He. }
      pose proof (nthz_range _ _ _ He) as R.
      assert (Hi : r0 <= i <= r1) by lia. pose proof (lohi i Hi) as L.
      destruct (wf_vec _ _ We) as (s' & els' & -> & S0' & N' & F').
      exists s', els'. split; [reflexivity|].
      assert (CL : forall j v, nthz els' (j - s') = Some v -> exists w, v = Cell w).
      { intros j v Hv. rewrite Forall_forall in F'. specialize (F' v (nthz_in _ _ _ Hv)). destruct v; [eauto|destruct F']. }
      assert (Q : s' = lo i /\ s' + Z.of_nat (length els') - 1 = hi i).
      { apply (region 0); auto; [lia|]. intros j. split.
        - intros [v Hv]. destruct (CL _ _ Hv) as [w ->].
          assert (K : cell sh r0 r1 c0 c1 i j).
          { apply C. cbn [look vec_of]. rewrite He. cbn [look vec_of]. rewrite Hv. discriminate. }
          apply cell_lohi in K. lia.
        - intros Hj. assert (K : look [i; j] (vec_of s els) <> None). { apply C, cell_lohi. lia. }
          cbn [look vec_of] in K. rewrite He in K. cbn [look vec_of] in K.
          destruct (nthz els' (j - s')); [eauto|congruence]. }
      split; [apply Q|]. split; [apply Q|]. intros j v Hv. destruct (CL _ _ Hv) as [w ->].
      assert (K : look [i; j] (vec_of s els) = Some w).
      { cbn [look vec_of]. rewrite He. cbn [look vec_of]. rewrite Hv. reflexivity. }
      rewrite (G i j) in K by (apply C; congruence). congruence. }
    split.
    - rewrite nv_dict_vec. f_equal. apply map_zrange. intros i e He.
      destruct (Y i e He) as (s' & els' & -> & A & B & D). rewrite nv_dict_vec. f_equal. rewrite <- B, <- A.
      apply map_zrange. intros j v Hv. rewrite (D j v Hv). reflexivity.
    - cbn [nv_list vec_of]. f_equal.
      rewrite (map_zrange_list els s nv_list (fun i => VList (map (fun j => g i j) (zrange (lo i) (hi i))))); [reflexivity|].
      intros i e He. destruct (Y i e He) as (s' & els' & -> & A & B & D). cbn [nv_list vec_of]. f_equal. rewrite <- B, <- A.
      apply map_zrange_list. intros j v Hv. rewrite (D j v Hv). reflexivity.
  Qed.

  Lemma last_value_in q : forall ops old, (In q (map fst ops) -> exists v, last_value q ops old = Some v) /\
    (~ In q (map fst ops) -> last_value q ops old = old).
  Proof.
    induction ops as [|[p v] ops IH]; intros old; cbn [map fst In last_value].
    - split; [intros []|reflexivity].
    - destruct (place_eqb q p) eqn:E.
      + apply place_eqb_iff in E. subst p. split; [|tauto]. intros _.
        destruct (IH (Some v)) as [A B]. destruct (in_dec (list_eq_dec Z.eq_dec) q (map fst ops)) as [H|H].
        * exact (A H).
        * rewrite (B H). eauto.
      + assert (p <> q). { intros ->. rewrite (proj2 (place_eqb_iff q q) eq_refl) in E. discriminate. }
        destruct (IH old) as [A B]. split; [intros [?|?]; [congruence|auto]|]. intros H'. apply B. tauto.
  Qed.
  Lemma last_value_old q : forall ops old old', In q (map fst ops) -> last_value q ops old = last_value q ops old'.
  Proof.
    induction ops as [|[p v] ops IH]; intros old old' H; cbn [map fst In last_value] in *; [destruct H|].
    destruct (place_eqb q p) eqn:E; [reflexivity|]. apply IH. destruct H as [->|H]; [|exact H].
    rewrite (proj2 (place_eqb_iff q q) eq_refl) in E. discriminate.
  Qed.

  Theorem matrix_same zero ops :
    (forall i j, In [i; j] (map fst (matrix_places ops)) <-> cell sh r0 r1 c0 c1 i j) ->
    in_order [] (map fst (matrix_places ops)) ->
    exists m m' d l,
      mat_init zero r0 r1 c0 c1 (is_triangle sh) (is_lower sh) = Val m /\
      mat_fill ops m = Val m' /\ m_accessed m' = true /\
      mat_dict m' = Val d /\ mat_list m' = Val l /\
      py_fill (matrix_places ops) (VDict []) = Ok d /\
      ((forall o, In o ops -> match snd o with VDict _ => False | _ => True end) -> convert d = Ok l).
  Proof.
    intros C O.
    assert (Cr : forall i j, cell sh r0 r1 c0 c1 i j -> rect i j).
    { intros i j K. apply cell_lohi in K. destruct K as [K1 K2]. pose proof (lohi i K1). split; lia. }
    destruct (init_ok zero) as (m & Im & Om).
    assert (InO : forall i j v, In (i, j, v) ops -> In [i; j] (map fst (matrix_places ops))).
    { intros i j v H. unfold matrix_places. rewrite map_map. apply in_map_iff. exists (i, j, v). auto. }
    destruct (mat_fill_ok ops m Om) as (m' & Fm & Om' & Ac & Dm).
    { intros i j v H. apply Cr, C. eapply InO, H. }
    assert (Pl : forall p, In p (map fst (matrix_places ops)) -> exists i j, p = [i; j]).
    { intros p Hp. unfold matrix_places in Hp. rewrite map_map in Hp. apply in_map_iff in Hp.
      destruct Hp as ([[i j] v] & <- & _). cbn [fst snd]. eauto. }
    assert (Ix : indices 2 (map fst (matrix_places ops))).
    { intros p Hp. destruct (Pl p Hp) as (i & j & ->). split; [reflexivity|].
      apply C, Cr in Hp. destruct Hp. destruct size as (S1 & S2 & S3 & _). repeat constructor; lia. }
    destruct (fill_run 1 (matrix_places ops) nv_empty [] Ix (or_introl eq_refl) (occupied_empty 1)) as [Fr _].
    destruct (Fr O) as (x & Fx & _ & Wx & Px & Lx).
    assert (Ne : ops <> []).
    { intros ->. assert (K : cell sh r0 r1 c0 c1 r0 (lo r0)).
      { apply cell_lohi. destruct size as (S1 & _). pose proof (lohi r0 ltac:(lia)). lia. }
      apply C in K. destruct K. }
    assert (Nep : matrix_places ops <> []) by (destruct ops; [congruence|discriminate]).
    specialize (Wx Nep). specialize (Ac Ne).
    set (g := fun i j => match nthz (m_data m') (pos i j) with Some v => v | None => VNone end).
    assert (G1 : forall a b, cell sh r0 r1 c0 c1 a b -> nthz (m_data m') (pos a b) = Some (g a b)).
    { intros a b K. subst g. cbn beta. rewrite (Dm a b (Cr a b K)). apply C in K.
      destruct (proj1 (last_value_in [a; b] (matrix_places ops) (nthz (m_data m) (pos a b))) K) as [v ->]. reflexivity. }
    assert (G2 : forall i j, look [i; j] x <> None <-> cell sh r0 r1 c0 c1 i j).
    { intros i j. rewrite (Lx [i; j] eq_refl), (look_empty [i; j] 1 eq_refl). split.
      - intros H. apply C. destruct (in_dec (list_eq_dec Z.eq_dec) [i; j] (map fst (matrix_places ops))) as [K|K]; [exact K|].
        rewrite (proj2 (last_value_in _ _ _) K) in H. congruence.
      - intros K. apply C in K. destruct (proj1 (last_value_in _ _ None) K) as [v ->]. discriminate. }
    assert (G3 : forall i j, cell sh r0 r1 c0 c1 i j -> look [i; j] x = Some (g i j)).
    { intros i j K. rewrite <- (G1 i j K), (Lx [i; j] eq_refl), (Dm i j (Cr i j K)). apply last_value_old, C, K. }
    destruct (mat_out m' g Om' G1) as [M1 M2]. destruct (vec_out x g Wx G2 G3) as [V1 V2].
    rewrite <- V1 in M1. rewrite <- V2 in M2.
    exists m, m', (nv_dict x), (nv_list x). split; [exact Im|]. split; [exact Fm|]. split; [exact Ac|].
    split; [exact M1|]. split; [exact M2|]. split; [exact Px|].
    intros Hp. apply (lists 2 x Wx). apply (look_plain 2 x Wx). intros q v L H.
    rewrite (Lx q L), (look_empty q 1 L) in H.
    assert (Z : forall os old, (forall o, In o os -> match snd o with VDict _ => False | _ => True end) ->
                (forall w, old = Some w -> match w with VDict _ => False | _ => True end) ->
                last_value q os old = Some v -> match v with VDict _ => False | _ => True end).
    { induction os as [|[p w] os IHo]; intros old Ho Hold Hl; cbn [last_value] in Hl; [exact (Hold v Hl)|].
      refine (IHo _ _ _ Hl).
      - intros o Hin. apply Ho. now right.
      - intros u. destruct (place_eqb q p); [|apply Hold]. intros E. injection E as <-. exact (Ho (p, w) (or_introl eq_refl)). }
    refine (Z (matrix_places ops) None _ _ H).
    - intros o Ho. unfold matrix_places in Ho. apply in_map_iff in Ho. destruct Ho as (o' & <- & Ho). cbn [snd]. exact (Hp o' Ho).
    - discriminate.
  Qed.
End Matrix.

(** ** Arrays of sections *)

(** dictionaries nested [n] deep with dictionaries at the bottom *)
Fixpoint nested (n : nat) (v : val) : Prop :=
  match n with
  | O => exists d, v = VDict d
  | S k => exists d, v = VDict d /\ forall i o, dget (KInt i) d = Some o -> nested k o
  end.
Lemma nested_empty n : nested n (VDict []).
Proof. destruct n; cbn [nested]; eexists; [reflexivity|]. split; [reflexivity|]. intros i o H. discriminate. Qed.

Fixpoint levels (n : nat) (P : place -> Prop) (sh : shifter) : Prop :=
  match n, sh with
  | S (S _ as k), Shift s acc next =>
      (acc = false /\ next = [] /\ (forall q, ~ P q)) \/
      (acc = true /\ next <> [] /\
       (forall j, (exists r, P (j :: r)) <-> s <= j < s + Z.of_nat (length next)) /\
       (forall j e, nthz next (j - s) = Some e -> levels k (fun q => P (j :: q)) e))
  | _, _ => True
  end.
Lemma levels_ext n : forall P Q sh, (forall q, P q <-> Q q) -> levels n P sh -> levels n Q sh.
Proof.
  induction n as [|[|n] IH]; intros P Q [s acc next] E H; try exact Logic.I.
  cbn [levels] in *. destruct H as [(A & B & C)|(A & B & C & D)].
  - left. repeat split; auto. intros q Hq. apply (C q), E, Hq.
  - right. split; [exact A|]. split; [exact B|]. split.
    + intros j. rewrite <- (C j). split; intros [r Hr]; exists r; apply E, Hr.
    + intros j e He. apply (IH (fun q => P (j :: q))); [intros q; apply E|]. apply D, He.
Qed.
Lemma levels_new n P : (forall q, ~ P q) -> levels n P new_shifter.
Proof. intros H. destruct n as [|[|n]]; cbn [levels new_shifter]; auto. Qed.

Lemma dget_dset i v d j : dget (KInt j) (dset (KInt i) v d) = if j =? i then Some v else dget (KInt j) d.
Proof.
  induction d as [|[k w] d IH]; cbn [dset dget].
  - cbn [key_eqb]. reflexivity.
  - destruct (key_eqb (KInt i) k) eqn:E.
    + destruct k as [z|]; [|discriminate]. cbn [key_eqb] in E. apply Z.eqb_eq in E. subst z. cbn [dget key_eqb].
      destruct (j =? i); reflexivity.
    + cbn [dget]. destruct (key_eqb (KInt j) k) eqn:E2; [|exact IH].
      destruct k as [z|]; [|discriminate]. cbn [key_eqb] in *. apply Z.eqb_eq in E2. subst z.
      rewrite Z.eqb_sym, E. reflexivity.
Qed.

Lemma shift_open_more i r d s0 acc next : r <> [] ->
  shift_open (i :: r) (VDict d) (Shift s0 acc next) =
  (let s := if acc then s0 else i in
   let old := match dget (KInt i) d with Some o => o | None => VDict [] end in
   let* (lvs, lv) := get_next_level (i - s) next in
   let* (found, o, lv') := shift_open r old lv in
   Val (found, VDict (dset (KInt i) o d), Shift s true (replace (Z.to_nat (i - s)) lv' lvs))).
Proof. destruct r; [congruence|reflexivity]. Qed.

Lemma open_step n : forall p cur sh P, length p = S n -> nested (S n) cur -> levels (S n) P sh -> follows_in P p ->
  (forall q, P q -> length q = S n) ->
  exists found cur' sh', shift_open p cur sh = Val (VDict found, cur', sh') /\
    open_path true [] (map KInt p) cur = Ok (found, cur') /\ nested (S n) cur' /\
    levels (S n) (fun q => P q \/ q = p) sh'.
Proof.
  induction n as [|n IH]; intros p cur sh P Lp Nc Lv Fo LP.
  - destruct p as [|i [|? ?]]; try discriminate. destruct Nc as (d & -> & Hd). destruct sh as [s acc next].
    cbn [shift_open map open_path].
    destruct (dget (KInt i) d) as [o|] eqn:E.
    + destruct (Hd i o E) as [d0 ->]. do 3 eexists. split; [reflexivity|]. split; [reflexivity|].
      split; [|exact Logic.I]. eexists. split; [reflexivity|]. intros j o' H. rewrite dget_dset in H.
      destruct (j =? i); [injection H as <-; eexists; reflexivity|exact (Hd _ _ H)].
    + do 3 eexists. split; [reflexivity|]. split; [reflexivity|].
      split; [|exact Logic.I]. eexists. split; [reflexivity|]. intros j o' H. rewrite dget_dset in H.
      destruct (j =? i); [injection H as <-; eexists; reflexivity|exact (Hd _ _ H)].
  - destruct p as [|i r]; [discriminate|]. injection Lp as Lr.
    assert (Nr : r <> []) by (intros ->; discriminate).
    destruct Nc as (d & -> & Hd). destruct sh as [s0 acc next].
    apply follows_cons in Fo. destruct Fo as [Top Fo].
    rewrite (shift_open_more _ _ _ _ _ _ Nr). cbn zeta. set (s := if acc then s0 else i).
    set (old := match dget (KInt i) d with Some o => o | None => VDict [] end).
    assert (No : nested (S n) old).
    { subst old. destruct (dget (KInt i) d) as [o|] eqn:E; [exact (Hd i o E)|apply nested_empty]. }
    assert (Next : exists lvs lv, get_next_level (i - s) next = Val (lvs, lv) /\ 0 <= i - s < Z.of_nat (length lvs) /\
              levels (S n) (fun q => P (i :: q)) lv /\
              (forall j, (exists q, P (j :: q)) \/ j = i <-> s <= j < s + Z.of_nat (length lvs)) /\
              (forall j e, j <> i -> nthz lvs (j - s) = Some e -> levels (S n) (fun q => P (j :: q)) e)).
    { cbn [levels] in Lv. destruct Lv as [(A & B & C)|(A & B & C & D)].
      - subst acc next. subst s. cbn match. rewrite Z.sub_diag. exists [new_shifter], new_shifter.
        split; [reflexivity|]. split; [cbn [length]; lia|]. split; [apply levels_new; intros q; apply C|]. split.
        + intros j. cbn [length]. split; [intros [[q Hq]| ->]; [exfalso; exact (C _ Hq)|lia]|]. intros H. right. lia.
        + intros j e Nj He. exfalso. apply nthz_range in He. cbn [length] in He. lia.
      - subst acc. subst s. cbn match. pose proof (length_pos _ B) as LN. unfold get_next_level.
        destruct (Z.eqb_spec (i - s0) (Z.of_nat (length next))) as [Ei|Ni].
        + exists (next ++ [new_shifter]), new_shifter. split; [reflexivity|]. rewrite app_length. cbn [length].
          split; [lia|]. split.
          { apply levels_new. intros q Hq. assert (s0 <= i < s0 + Z.of_nat (length next)) by (apply C; eauto). lia. }
          split.
          * intros j. rewrite (C j). lia.
          * intros j e Nj He. rewrite nthz_snoc in He.
            destruct (Z.eqb_spec (j - s0) (Z.of_nat (length next))); [lia|]. apply D, He.
        + assert (R : 0 <= i - s0 < Z.of_nat (length next)).
          { destruct Top as [Top|(j & rest & [->| ->] & Top)].
            - destruct (proj2 (C s0)) as [q Hq]; [lia|]. exfalso. exact (Top _ _ Hq).
            - assert (s0 <= i < s0 + Z.of_nat (length next)) by (apply C; eauto). lia.
            - assert (s0 <= i - 1 < s0 + Z.of_nat (length next)) by (apply C; eauto). lia. }
          rewrite (proj2 (in_size_iff _ _) R). destruct (nthz_some _ _ R) as [lv E]. rewrite (nthz_nth _ _ _ E).
          exists next, lv. split; [reflexivity|]. split; [exact R|]. split; [apply D, E|]. split.
          * intros j. rewrite (C j). lia.
          * intros j e Nj He. apply D, He. }
    destruct Next as (lvs & lv & E1 & R & L1 & C1 & D1). rewrite E1. cbn [cbind].
    destruct (IH r old lv (fun q => P (i :: q)) Lr No L1 Fo) as (found & o & lv' & A & B & C & D).
    { intros q Hq. apply LP in Hq. cbn [length] in Hq. lia. }
    rewrite A. cbn [cbind].
    exists found, (VDict (dset (KInt i) o d)), (Shift s true (replace (Z.to_nat (i - s)) lv' lvs)).
    split; [reflexivity|]. split; [|split].
    + cbn [map open_path]. subst old. destruct (dget (KInt i) d) as [o1|] eqn:E; rewrite B; reflexivity.
    + eexists. split; [reflexivity|]. intros j o' H. rewrite dget_dset in H.
      destruct (j =? i); [injection H as <-; exact C|exact (Hd _ _ H)].
    + cbn [levels]. right. split; [reflexivity|]. split.
      { intros H. apply (f_equal (@length _)) in H. rewrite replace_length in H. cbn [length] in H. lia. }
      rewrite replace_length. split.
      * intros j. rewrite <- (C1 j). split.
        -- intros [q [H|H]]; [left; eauto|]. injection H as -> _. auto.
        -- intros [[q H]| ->]; [exists q; auto|]. exists r. auto.
      * intros j e He. rewrite nthz_replace in He by exact R.
        destruct (Z.eqb_spec (j - s) (i - s)) as [Ej|Nj].
        -- assert (j = i) by lia. subst j. injection He as <-.
           refine (levels_ext _ _ _ _ _ D). intros q. split; [intros [H|H]; [auto|right; congruence]|].
           intros [H|H]; [auto|right; congruence].
        -- refine (levels_ext _ (fun q => P (j :: q)) _ _ _ (D1 j e ltac:(lia) He)).
           intros q. split; [auto|]. intros [H|H]; [exact H|]. exfalso. apply Nj. injection H as -> _. reflexivity.
Qed.

Lemma put_nested n : forall p b cur, length p = n -> nested n cur -> nested n (put_path (map KInt p) (VDict b) cur).
Proof.
  induction n as [|n IH]; intros p b cur Lp Nc.
  - destruct p; [|discriminate]. cbn [map put_path nested]. eexists. reflexivity.
  - destruct p as [|i r]; [discriminate|]. injection Lp as Lr. destruct Nc as (d & -> & Hd).
    cbn [map put_path]. destruct (dget (KInt i) d) as [o|] eqn:E.
    + eexists. split; [reflexivity|]. intros j o' H. rewrite dget_dset in H.
      destruct (j =? i); [injection H as <-|exact (Hd _ _ H)]. apply IH; [exact Lr|]. exact (Hd i o E).
    + eexists. split; [reflexivity|]. exact Hd.
Qed.

Lemma sections_run n : forall ops cur sh before,
  (forall p, In p (map fst ops) -> length p = S n) -> nested (S n) cur ->
  levels (S n) (fun q => In q before) sh -> (forall q, In q before -> length q = S n) ->
  in_order before (map fst ops) ->
  exists a, shift_sections ops cur sh = Val a /\ py_sections ops cur = Ok a.
Proof.
  induction ops as [|[p body] ops IH]; intros cur sh before Lp Nc Lv LB O; cbn [map fst in_order shift_sections py_sections] in *.
  - exists cur. auto.
  - destruct O as [Fo O].
    destruct (open_step n p cur sh (fun q => In q before) (Lp p (or_introl eq_refl)) Nc Lv Fo LB)
      as (found & cur' & sh' & A & B & C & D).
    rewrite A, B. cbn [cbind bind].
    apply (IH _ _ (before ++ [p])).
    + intros q Hq. apply Lp. now right.
    + apply put_nested; [exact (Lp p (or_introl eq_refl))|exact C].
    + refine (levels_ext _ _ _ _ _ D). intros q. rewrite in_app_iff. cbn [In]. intuition.
    + intros q Hq. apply in_app_iff in Hq. destruct Hq as [Hq|[<-|[]]]; [exact (LB q Hq)|]. exact (Lp p (or_introl eq_refl)).
    + exact O.
Qed.

(** with one index the order does not matter *)
Lemma sections_one : forall ops cur sh,
  (forall p, In p (map fst ops) -> length p = 1%nat) -> nested 1 cur ->
  exists a, shift_sections ops cur sh = Val a /\ py_sections ops cur = Ok a.
Proof.
  induction ops as [|[p body] ops IH]; intros cur sh Lp Nc; cbn [map fst shift_sections py_sections] in *.
  - exists cur. auto.
  - destruct (open_step 0 p cur sh (fun q => False) (Lp p (or_introl eq_refl)) Nc Logic.I)
      as (found & cur' & sh' & A & B & C & _).
    + intros pre i post E. left. auto.
    + intros q [].
    + rewrite A, B. cbn [cbind bind]. apply IH.
      * intros q Hq. apply Lp. now right.
      * apply put_nested; [exact (Lp p (or_introl eq_refl))|exact C].
Qed.

(** ** Statements *)

Theorem arrays_same n ops :
  indices (S n) (map fst ops) -> in_order [] (map fst ops) ->
  exists x d, nv_fill ops nv_empty = Val x /\ py_fill ops (VDict []) = Ok (VDict d) /\
    nv_dict x = VDict d /\ (nv_did_read x = true <-> ops <> []) /\
    (forall q, length q = S n ->
       match array_get (VDict d) q with
       | Ok v => nv_has q x = Val true /\ nv_get q x = Val v
       | Err _ => nv_has q x = Val false /\ nv_get q x = Throw
       end).
Proof.
  intros Hi O. destruct (fill_run n ops nv_empty [] Hi (or_introl eq_refl) (occupied_empty n)) as [Fr _].
  destruct (Fr O) as (x & Fx & Sx & Wx & Px & Lx).
  destruct ops as [|o ops].
  - cbn [nv_fill] in Fx. injection Fx as <-. exists nv_empty, []. split; [reflexivity|]. split; [reflexivity|].
    split; [reflexivity|]. split.
    + split; [|congruence]. intros H. discriminate H.
    + intros q Lq. destruct (reads_empty n q Lq) as (A & B & C). rewrite C. auto.
  - specialize (Wx ltac:(discriminate)). destruct (wf_vec _ _ Wx) as (s & els & -> & S0 & N & F).
    exists (vec_of s els), (number s (map nv_dict els)). split; [exact Fx|]. split; [exact Px|]. split; [reflexivity|].
    split.
    + split; [intros _; discriminate|]. intros _. pose proof (length_pos _ N). unfold nv_did_read, vec_of.
      apply negb_true_iff, Z.eqb_neq. lia.
    + intros q Lq. destruct (reads (S n) q _ Lq Wx) as (A & B & C). rewrite nv_dict_vec in C. rewrite C, A, B.
      destruct (look q (vec_of s els)); auto.
Qed.

Theorem arrays_rejected n ops :
  indices (S n) (map fst ops) -> ~ in_order [] (map fst ops) -> nv_fill ops nv_empty = Throw.
Proof.
  intros Hi O. destruct (fill_run n ops nv_empty [] Hi (or_introl eq_refl) (occupied_empty n)) as [_ Fr].
  exact (Fr O).
Qed.

Lemma last_value_plain q v : forall os old, (forall o, In o os -> match snd o with VDict _ => False | _ => True end) ->
  (forall w, old = Some w -> match w with VDict _ => False | _ => True end) ->
  last_value q os old = Some v -> match v with VDict _ => False | _ => True end.
Proof.
  induction os as [|[p w] os IHo]; intros old Ho Hold Hl; cbn [last_value] in Hl; [exact (Hold v Hl)|].
  refine (IHo _ _ _ Hl).
  - intros o Hin. apply Ho. now right.
  - intros u. destruct (place_eqb q p); [|apply Hold]. intros E. injection E as <-. exact (Ho (p, w) (or_introl eq_refl)).
Qed.
Theorem arrays_lists n ops :
  indices (S n) (map fst ops) -> in_order [] (map fst ops) -> ops <> [] ->
  (forall o, In o ops -> match snd o with VDict _ => False | _ => True end) ->
  exists x d, nv_fill ops nv_empty = Val x /\ py_fill ops (VDict []) = Ok d /\ convert d = Ok (nv_list x).
Proof.
  intros Hi O Ne Hp. destruct (fill_run n ops nv_empty [] Hi (or_introl eq_refl) (occupied_empty n)) as [Fr _].
  destruct (Fr O) as (x & Fx & Sx & Wx & Px & Lx). exists x, (nv_dict x). split; [exact Fx|]. split; [exact Px|].
  apply (lists (S n) x (Wx Ne)). apply (look_plain (S n) x (Wx Ne)). intros q v L H.
  rewrite (Lx q L), (look_empty q n L) in H. refine (last_value_plain q v ops None Hp _ H). discriminate.
Qed.

Theorem loops_same n l (ops : list (place * val)) : regular (S n) l -> map fst ops = loop_places l ->
  indices (S n) (map fst ops) /\ in_order [] (map fst ops).
Proof. intros R ->. split; [apply regular_indices|apply (regular_in_order (S n))]; exact R. Qed.

Theorem rows_same n rows :
  indices (S n) (map fst (flat_map row_ops rows)) ->
  (forall row, In row rows -> snd row <> [] /\ forall o, In o (snd row) -> fst o <> []) ->
  nv_rows rows nv_empty = nv_fill (flat_map row_ops rows) nv_empty.
Proof. intros H1 H2. apply (rows_fill n); auto. left. reflexivity. Qed.

Theorem sections_same n ops :
  (forall p, In p (map fst ops) -> length p = S n) -> in_order [] (map fst ops) ->
  exists a, shift_sections ops (VDict []) new_shifter = Val a /\ py_sections ops (VDict []) = Ok a.
Proof.
  intros L O. apply (sections_run n ops (VDict []) new_shifter []); auto.
  - apply nested_empty.
  - apply levels_new. intros q [].
  - intros q [].
Qed.
Theorem sections_one_same ops :
  (forall p, In p (map fst ops) -> length p = 1%nat) ->
  exists a, shift_sections ops (VDict []) new_shifter = Val a /\ py_sections ops (VDict []) = Ok a.
Proof. intros L. apply sections_one; [exact L|]. apply nested_empty. Qed.

Theorem columns_in_order r0 r1 c0 c1 : in_order [] (column_places r0 r1 c0 c1).
Proof.
  destruct (Z.leb_spec c0 (c1 + 1)).
  - apply (column_in_order (Z.to_nat (c1 + 1 - c0)) r0 r1 c0); [lia|lia|]. intros q. split; [intros []|].
    intros (i & j & _ & _ & H'). lia.
  - unfold column_places. rewrite (zrange_empty c0 c1) by lia. exact Logic.I.
Qed.
