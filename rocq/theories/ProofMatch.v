(** Proofs about queries (C49). *)
From Coq Require Import Ascii String ZArith Bool Lia List.
From Verif Require Import PyBase ProofPyBase ModelFortran ModelNum ModelRecipe ModelInterp ModelPath ModelMatch SpecPath SpecMatch ProofInterpSec ProofPath ProofPathStr ProofTools.
Import ListNotations.
Open Scope Z_scope.

(** ** Generators *)

Lemma gapp_in {A} (a b : gen A) x : snd a = None -> In x (fst (gapp a b)) <-> In x (fst a) \/ In x (fst b).
Proof. intros E. unfold gapp. rewrite E. cbn [fst]. apply in_app_iff. Qed.
Lemma gapp_snd {A} (a b : gen A) : snd (gapp a b) = None <-> snd a = None /\ snd b = None.
Proof. unfold gapp. destruct (snd a) eqn:E; cbn; [rewrite E; intuition discriminate|tauto]. Qed.
Lemma gapp_sub {A} (a b : gen A) x : In x (fst (gapp a b)) -> In x (fst a) \/ In x (fst b).
Proof. unfold gapp. destruct (snd a); cbn; [auto|]. apply in_app_iff. Qed.
Lemma gfor_sub {A B} (l : list A) (f : A -> gen B) y : In y (fst (gfor l f)) -> exists x, In x l /\ In y (fst (f x)).
Proof.
  induction l as [|x l IH]; cbn [gfor]; [intros []|]. intros H. apply gapp_sub in H as [H|H]; [exists x; split; [left; reflexivity|exact H]|].
  destruct (IH H) as [x' [I J]]. exists x'. split; [right; exact I|exact J].
Qed.
Lemma gfor_all {A B} (l : list A) (f : A -> gen B) : snd (gfor l f) = None ->
  (forall x, In x l -> snd (f x) = None) /\ (forall x y, In x l -> In y (fst (f x)) -> In y (fst (gfor l f))).
Proof.
  induction l as [|x l IH]; cbn [gfor]; [intros _; split; intros ? [] || intros ? ? []|]. intros H. apply gapp_snd in H as [H1 H2].
  destruct (IH H2) as [A1 A2]. split.
  - intros y [<-|I]; auto.
  - intros z y [<-|I] J; apply gapp_in; auto. right. eapply A2; eauto.
Qed.
Lemma gbind_sub {A B} (a : gen A) (f : A -> gen B) y : In y (fst (gbind a f)) -> exists x, In x (fst a) /\ In y (fst (f x)).
Proof. intros H. apply gapp_sub in H as [H|[]]. exact (gfor_sub _ _ _ H). Qed.
Lemma gbind_all {A B} (a : gen A) (f : A -> gen B) : snd (gbind a f) = None ->
  snd a = None /\ (forall x, In x (fst a) -> snd (f x) = None) /\ (forall x y, In x (fst a) -> In y (fst (f x)) -> In y (fst (gbind a f))).
Proof.
  unfold gbind. intros H. apply gapp_snd in H as [H1 H2]. cbn [snd] in H2. destruct (gfor_all _ _ H1) as [A1 A2].
  split; [exact H2|]. split; [exact A1|]. intros x y I J. apply gapp_in; [exact H1|]. left. eauto.
Qed.

(** [g] yields the elements of [P]: what it yields is in [P] and, unless it ends with an exception,
    all of [P] is yielded *)
Definition yields {A} (g : gen A) (P : A -> Prop) : Prop :=
  (forall x, In x (fst g) -> P x) /\ (snd g = None -> forall x, P x -> In x (fst g)).
Lemma yields_bind {A B} (a : gen A) (f : A -> gen B) P (Q : A -> B -> Prop) :
  yields a P -> (forall x, P x -> yields (f x) (Q x)) -> yields (gbind a f) (fun y => exists x, P x /\ Q x y).
Proof.
  intros [A1 A2] F. split.
  - intros y I. apply gbind_sub in I as [x [I J]]. exists x. split; [auto|]. apply (F x); auto.
  - intros E y [x [I J]]. apply gbind_all in E as [E1 [E2 E3]]. assert (In x (fst a)) by auto. apply (E3 x y); [assumption|]. apply (F x); auto.
Qed.
Lemma yields_ext {A} (g : gen A) (P Q : A -> Prop) : (forall x, P x <-> Q x) -> yields g P -> yields g Q.
Proof. intros E [A1 A2]. split; [intros x I; apply E; auto|intros N x I; apply A2; [exact N|]; apply E; exact I]. Qed.
Lemma yields_one {A} (x : A) : yields ([x], None) (eq x).
Proof. split; [intros y [<-|[]]; reflexivity|intros _ y <-; left; reflexivity]. Qed.
Lemma yields_product {A B C} (f : A -> B -> C) a b (P : A -> Prop) (Q : B -> Prop) : yields a P -> yields b Q ->
  yields (product f a b) (fun z => exists x y, P x /\ Q y /\ z = f x y).
Proof.
  intros [A1 A2] [B1 B2]. unfold product. destruct (snd a) eqn:Ea; [split; [intros ? []|discriminate]|].
  destruct (snd b) eqn:Eb; [split; [intros ? []|discriminate]|]. split; cbn [fst snd].
  - intros z I. apply in_flat_map in I as [x [I J]]. apply in_map_iff in J as [y [<- J]]. exists x, y. auto.
  - intros _ z [x [y [I [J ->]]]]. apply in_flat_map. exists x. split; [auto|]. apply in_map. auto.
Qed.

(** ** Paths *)

Lemma cut_star_none p : cut_star p = None <-> ~ In star p.
Proof.
  induction p as [|k p IH]; cbn [cut_star In]; [tauto|]. destruct (key_eqb k star) eqn:E.
  - apply key_eqb_eq in E. subst. split; [discriminate|tauto].
  - destruct (cut_star p) as [[a b]|]; split; intros H; try discriminate.
    + exfalso. assert (X : ~ In star p) by tauto. apply IH in X. discriminate.
    + intros [->|I]; [rewrite key_eqb_refl in E; discriminate|]. apply IH in I; auto.
    + reflexivity.
Qed.
Lemma cut_star_some p a b : cut_star p = Some (a, b) -> p = a ++ star :: b /\ ~ In star a.
Proof.
  revert a b. induction p as [|k p IH]; intros a b; cbn [cut_star]; [discriminate|]. destruct (key_eqb k star) eqn:E.
  - apply key_eqb_eq in E. intros [= <- <-]. subst. split; [reflexivity|intros []].
  - destruct (cut_star p) as [[a' b']|]; [|discriminate]. intros [= <- <-]. destruct (IH a' b' eq_refl) as [-> N]. split; [reflexivity|].
    intros [X|X]; [subst; rewrite key_eqb_refl in E; discriminate|contradiction].
Qed.
Lemma stars_app a b : stars (a ++ b) = (stars a + stars b)%nat.
Proof. unfold stars. rewrite filter_app, app_length. reflexivity. Qed.
Lemma stars_none p : stars p = 0%nat <-> ~ In star p.
Proof.
  unfold stars. induction p as [|k p IH]; cbn [filter length In]; [tauto|]. destruct (key_eqb k star) eqn:E; cbn [length].
  - apply key_eqb_eq in E. subst. split; [discriminate|tauto].
  - rewrite IH. split; [intros N [->|X]; [rewrite key_eqb_refl in E; discriminate|contradiction]|tauto].
Qed.
Lemma stars_cons k p : k <> star -> stars (k :: p) = stars p.
Proof. intros N. unfold stars. cbn [filter]. rewrite key_eqb_neq by exact N. reflexivity. Qed.
Lemma stars_star p : stars (star :: p) = S (stars p).
Proof. reflexivity. Qed.

Lemma key_as_path_ok k : valid_key k -> key_as_path k = Ok [k].
Proof.
  destruct k as [z|s]; intros V; cbn [key_as_path].
  - exact (path_of_int z V).
  - exact (path_of_str [KStr s] (Forall_cons _ V (Forall_nil _))).
Qed.
Lemma nonneg_key (i : nat) : valid_key (KInt (Z.of_nat i)).
Proof. cbn. lia. Qed.

Lemma element_key v k x : element v k x <-> exists ks, keys_of v = Some ks /\ In k ks /\ path_lookup [k] v = Ok x.
Proof.
  cbn [path_lookup]. destruct v; cbn [element keys_of item]; try (split; [intros []|intros [ks [E _]]; discriminate]).
  - split.
    + intros [i [-> E]]. eexists. split; [reflexivity|]. split.
      * apply in_map_iff. exists i. split; [reflexivity|]. apply in_seq. assert (i < length l)%nat by (apply nth_error_Some; congruence). lia.
      * cbn [item]. rewrite (proj2 (Z.ltb_ge _ 0)) by lia. rewrite Nat2Z.id, E. reflexivity.
    + intros [ks [[= <-] [I H]]]. apply in_map_iff in I as [i [<- _]]. exists i. split; [reflexivity|].
      cbn [item] in H. rewrite (proj2 (Z.ltb_ge _ 0)) in H by lia. rewrite Nat2Z.id in H. destruct (nth_error l i); [|discriminate]. cbn in H. congruence.
  - split.
    + intros E. eexists. split; [reflexivity|]. split; [apply dget_keys; eauto|]. rewrite E. reflexivity.
    + intros [ks [[= <-] [I H]]]. destruct (dget k d); [|discriminate]. cbn in H. congruence.
Qed.
Lemma keys_exist v ks k : keys_of v = Some ks -> In k ks -> exists x, element v k x.
Proof.
  destruct v; try discriminate; cbn [keys_of]; intros [= <-] I.
  - apply in_map_iff in I as [i [<- I]]. apply in_seq in I. destruct (nth_error l i) as [x|] eqn:E; [|apply nth_error_None in E; lia].
    exists x. exists i. auto.
  - apply dget_keys in I as [x E]. exists x. exact E.
Qed.
Lemma named_keys v ks k : named v -> keys_of v = Some ks -> In k ks -> valid_key k /\ k <> star.
Proof.
  intros N. destruct v; try discriminate; cbn [keys_of]; intros [= <-] I.
  - apply in_map_iff in I as [i [<- I]]. split; [apply nonneg_key|discriminate].
  - exact (N [] d k eq_refl I).
Qed.
Lemma named_lookup p v x : named v -> path_lookup p v = Ok x -> named x.
Proof. intros N E q d k L I. apply (N (p ++ q) d k); [|exact I]. rewrite lookup_app, E. exact L. Qed.

(** ** Instances *)

Lemma instance_plain p v q : ~ In star p -> instance p v q <-> q = p.
Proof.
  intros N. split; [|intros ->; apply in_plain; exact N]. intros H. destruct H as [p v _|k p v x q _ I _ _|k p v x q _ _]; [reflexivity| |].
  - exfalso. apply N. right. exact I.
  - exfalso. apply N. left. reflexivity.
Qed.
Lemma instance_cut a b v q : ~ In star a ->
  instance (a ++ star :: b) v q <-> exists y k x r, path_lookup a v = Ok y /\ element y k x /\ instance b x r /\ q = a ++ k :: r.
Proof.
  revert v q. induction a as [|k0 a IH]; intros v q N; cbn [app path_lookup].
  - split.
    + intros H. inversion H as [p v0 X|k p v0 x q' X|k p v0 x q' X Y]; subst.
      * exfalso. apply X. left. reflexivity.
      * congruence.
      * exists v, k, x, q'. auto.
    + intros (y & k & x & r & [= <-] & E & I & ->). apply in_star with (x := x); assumption.
  - assert (K : k0 <> star) by (intros ->; apply N; left; reflexivity). assert (N' : ~ In star a) by (intros I; apply N; right; exact I).
    split.
    + intros H. inversion H as [p v0 X|k p v0 x q' X1 X2 X3 X4|k p v0 x q' X Y]; subst.
      * exfalso. apply X. right. apply in_app_iff. right. left. reflexivity.
      * apply IH in X4 as (y & k & x' & r & E & El & I & ->); [|exact N']. exists y, k, x', r.
        cbn [path_lookup] in X3. destruct (item v k0) as [c|]; [|discriminate]. cbn in X3. injection X3 as ->. auto.
      * congruence.
    + intros (y & k & x & r & E & El & I & ->). destruct (item v k0) as [c|] eqn:C; [|discriminate]. cbn [bind] in E.
      apply in_key with (x := c); [exact K|apply in_app_iff; right; left; reflexivity|cbn [path_lookup]; rewrite C; reflexivity|].
      apply IH; [exact N'|]. exists y, k, x, r. auto.
Qed.

(** ** The path generator *)

Lemma path_gen_plain fuel p d lead : ~ In star p -> valid_path lead -> valid_path p -> path_gen fuel p d lead = ([lead ++ p], None).
Proof. intros N V W. destruct fuel; cbn [path_gen]; rewrite (proj2 (cut_star_none p) N), path_add_app by assumption; reflexivity. Qed.

(** the loop with an empty leading path *)
Lemma path_gen_loop fuel rest cur pre ks : valid_path rest -> valid_path pre -> (forall k, In k ks -> valid_key k) ->
  forall P : key -> list key -> Prop, (forall k, In k ks -> yields (path_gen fuel (k :: rest) cur pre) (P k)) ->
  yields ((fix go (ks : list key) (new_lead : list key) : gen (list key) :=
           match ks with
           | [] => ([], None)
           | k :: ks =>
               match (do kp <- key_as_path k; do t <- path_add kp rest;
                      do nl <- path_add [] new_lead; Ok (t, nl)) with
               | Err e => ([], Some e)
               | Ok (t, nl) => gapp (path_gen fuel t cur nl) (go ks nl)
               end
           end) ks pre) (fun q => exists k, In k ks /\ P k q).
Proof.
  intros VR VP VK P H. induction ks as [|k ks IH].
  - split; [intros ? []|intros _ q [k [[] _]]].
  - assert (V : valid_key k) by (apply VK; left; reflexivity).
    assert (E1 : path_add [k] rest = Ok (k :: rest)) by (apply (path_add_app [k] rest); [constructor; [exact V|constructor]|exact VR]).
    assert (E2 : path_add [] pre = Ok pre) by (apply (path_add_app [] pre); [constructor|exact VP]).
    assert (E : (do kp <- key_as_path k; do t <- path_add kp rest; do nl <- path_add [] pre; Ok (t, nl)) = Ok (k :: rest, pre))
      by (rewrite (key_as_path_ok k V); cbn [bind]; rewrite E1; cbn [bind]; rewrite E2; reflexivity).
    rewrite E. clear E E1 E2.
    destruct (H k (or_introl eq_refl)) as [A1 A2].
    destruct IH as [B1 B2]; [intros; apply VK; right; assumption|intros; apply H; right; assumption|].
    split.
    + intros q I. apply gapp_sub in I as [I|I]; [exists k; split; [left; reflexivity|auto]|]. destruct (B1 q I) as [k' [J1 J2]]. exists k'. split; [right; exact J1|exact J2].
    + intros E q [k' [[<-|J1] J2]]; apply gapp_snd in E as [E1 E2]; apply gapp_in; auto. right. apply B2; eauto.
Qed.

Lemma path_gen_cut fuel p v pre rest : cut_star p = Some (pre, rest) -> valid_path p -> named v ->
  (forall y k x, path_lookup pre v = Ok y -> element y k x -> yields (path_gen fuel (k :: rest) y pre) (fun q => exists r, instance rest x r /\ q = pre ++ k :: r)) ->
  yields (path_gen (S fuel) p v []) (instance p v).
Proof.
  intros C V N H. destruct (cut_star_some _ _ _ C) as [-> NP].
  assert (VS := V). apply Forall_app in VS as [VP VS]. inversion VS as [|? ? _ VR]; subst.
  cbn [path_gen]. rewrite C. destruct (path_lookup pre v) as [y|e] eqn:E.
  2:{ assert (X : forall q, ~ instance (pre ++ star :: rest) v q).
      { intros q I. apply instance_cut in I as (y & k & x & r & E' & _); [congruence|exact NP]. }
      destruct e; (split; [intros ? []|first [discriminate|intros _ q I; exfalso; exact (X q I)]]). }
  destruct (keys_of y) as [ks|] eqn:K.
  2:{ split; [intros ? []|]. intros _ q I. apply instance_cut in I as (y' & k & x & r & E' & El & _); [|exact NP].
      rewrite E in E'. injection E' as <-. apply element_key in El as [ks [K' _]]. congruence. }
  pose proof (named_lookup _ _ _ N E) as NY.
  eapply yields_ext; [|apply (path_gen_loop fuel rest y pre ks) with (P := fun k q => exists x r, element y k x /\ instance rest x r /\ q = pre ++ k :: r)]; auto.
  - intros q. rewrite instance_cut by exact NP. split.
    + intros [k [I (x & r & El & J & ->)]]. exists y, k, x, r. auto.
    + intros (y' & k & x & r & E' & El & J & ->). rewrite E in E'. injection E' as <-. exists k. split; [|exists x, r; auto].
      apply element_key in El as [ks' [K' [I _]]]. rewrite K in K'. injection K' as <-. exact I.
  - intros k I. exact (proj1 (named_keys _ _ _ NY K I)).
  - intros k I. destruct (keys_exist _ _ _ K I) as [x El]. eapply yields_ext; [|exact (H y k x eq_refl El)].
    intros q. split.
    + intros [r [J ->]]. exists x, r. auto.
    + intros (x' & r & El' & J & ->). exists r. split; [|reflexivity].
      apply element_key in El as [? [_ [_ L]]]. apply element_key in El' as [? [_ [_ L']]]. rewrite L in L'. injection L' as <-. exact J.
Qed.

Lemma valid_app_star pre rest : valid_path (pre ++ star :: rest) -> valid_path pre /\ valid_path rest.
Proof. intros V. apply Forall_app in V as [VP VS]. inversion VS; subst. auto. Qed.
Lemma element_valid v y pre k x : named v -> path_lookup pre v = Ok y -> element y k x -> valid_key k /\ k <> star.
Proof.
  intros N E El. apply element_key in El as [ks [K [I _]]]. exact (named_keys _ _ _ (named_lookup _ _ _ N E) K I).
Qed.

Lemma path_gen_one p fuel v : valid_path p -> named v -> stars p = 1%nat -> yields (path_gen (S fuel) p v []) (instance p v).
Proof.
  intros V N S1. destruct (cut_star p) as [[pre rest]|] eqn:C.
  - destruct (cut_star_some _ _ _ C) as [EQ NP]. rewrite EQ in V. destruct (valid_app_star _ _ V) as [VP VR]. rewrite <- EQ in V.
    rewrite EQ, stars_app, stars_star in S1. assert (NR : ~ In star rest) by (apply stars_none; lia).
    apply (path_gen_cut fuel p v pre rest); auto. intros y k x E El. destruct (element_valid _ _ _ _ _ N E El) as [VK NK].
    rewrite path_gen_plain; auto; [|intros [X|X]; [congruence|contradiction]|constructor; auto].
    eapply yields_ext; [|apply yields_one]. intros q. split; [intros <-; exists rest; split; [apply instance_plain; auto|reflexivity]|].
    intros [r [I ->]]. apply instance_plain in I; [subst; reflexivity|exact NR].
  - apply cut_star_none, stars_none in C. lia.
Qed.

Lemma generator_yields p v : simple_path p -> named v -> yields (endf_path_generator p v) (instance p v).
Proof.
  intros [V S] N. unfold endf_path_generator. destruct (cut_star p) as [[pre rest]|] eqn:C.
  2:{ apply cut_star_none in C. rewrite (path_gen_plain _ p v []) by (auto; constructor). eapply yields_ext; [|apply yields_one].
      intros q. rewrite (instance_plain p v q C). cbn [app]. split; congruence. }
  assert (NZ : stars p <> 0%nat) by (intros Z0; apply stars_none, cut_star_none in Z0; congruence).
  destruct S as [S|[r [-> S]]].
  - destruct (stars p) as [|[|?]] eqn:E; try lia. apply path_gen_one; auto.
  - rewrite stars_star. destruct (stars r) as [|[|?]] eqn:E; try lia.
    + apply path_gen_one; auto. rewrite stars_star. congruence.
    + injection C as <- <-. apply (path_gen_cut 1 (star :: r) v [] r); auto. intros y k x [= <-] El.
      destruct (element_valid v v [] k x N eq_refl El) as [VK NK]. inversion V as [|? ? _ VR]; subst.
      assert (H : yields (path_gen 1 (k :: r) v []) (instance (k :: r) v)).
      { apply path_gen_one; auto; [constructor; auto|]. rewrite stars_cons by exact NK. exact E. }
      eapply yields_ext; [|exact H]. intros q. apply element_key in El as [ks [_ [_ L]]].
      assert (IS : In star r). { destruct (in_dec key_dec star r) as [I|I]; [exact I|]. apply stars_none in I. lia. }
      split.
      * intros I. inversion I as [p0 v0 X|k0 p0 v0 x0 q' X1 X2 X3 X4|k0 p0 v0 x0 q' X Y]; subst; [exfalso; apply X; right; exact IS| |congruence].
        rewrite L in X3. injection X3 as <-. exists q'. auto.
      * intros [r' [I ->]]. apply in_key with (x := x); auto.
Qed.

(** ** Queries *)

Lemma lookup_caught q : forall v e, path_lookup q v = Err e -> e = KeyError \/ e = IndexError \/ e = TypeError.
Proof.
  induction q as [|k q IH]; intros v e; cbn [path_lookup]; [discriminate|]. destruct (item v k) as [c|e'] eqn:E; cbn [bind]; [apply IH|].
  intros [= <-]. destruct v; destruct k; cbn [item] in E; try (injection E as <-; auto; fail).
  - destruct (z <? 0); [injection E as <-; auto|]. destruct (nth_error s (Z.to_nat z)); [discriminate|injection E as <-; auto].
  - destruct (z <? 0); [injection E as <-; auto|]. destruct (nth_error l (Z.to_nat z)); [discriminate|injection E as <-; auto].
  - destruct (dget (KInt z) d); [discriminate|injection E as <-; auto].
  - destruct (dget (KStr s) d); [discriminate|injection E as <-; auto].
Qed.
Lemma exists_false q v : path_exists q v = false <-> exists e, path_lookup q v = Err e.
Proof.
  unfold path_exists. destruct (path_lookup q v) as [x|e]; [split; [discriminate|intros [e E]; discriminate]|].
  split; [eauto|]. intros _. destruct e; reflexivity.
Qed.

Lemma expr_yields e v : simple_expr e -> named v -> yields (eval_expr e v) (operand e v).
Proof.
  destruct e as [x|p]; intros S N; cbn [eval_expr].
  - eapply yields_ext; [|apply yields_one]. intros y. split; [intros <-; constructor|intros H; inversion H; reflexivity].
  - eapply yields_ext; [|apply yields_bind with (P := instance p v) (Q := fun q y => path_lookup q v = Ok y \/ (path_exists q v = false /\ y = VNone)); [apply generator_yields; auto|]].
    + intros y. split.
      * intros [q [I [E|[E ->]]]]; [eapply op_path; eauto|eapply op_absent; eauto].
      * intros H. inversion H; subst; eauto.
    + intros q I. destruct (path_lookup q v) as [x|e] eqn:E.
      * eapply yields_ext; [|apply yields_one]. intros y. split; [intros <-; auto|].
        intros [[= <-]|[X ->]]; [reflexivity|]. apply exists_false in X as [e X]. congruence.
      * assert (Y : forall y, VNone = y <-> Err e = Ok y \/ path_exists q v = false /\ y = VNone).
        { intros y. split; [intros <-; right; split; [apply exists_false; eauto|reflexivity]|intros [X|[_ ->]]; [discriminate|reflexivity]]. }
        destruct (lookup_caught _ _ _ E) as [-> |[-> | ->]]; (eapply yields_ext; [exact Y|apply yields_one]).
Qed.

Lemma num_cmp_sym x y : num_cmp y x = option_map CompOpp (num_cmp x y).
Proof.
  unfold num_cmp. destruct (sf_of x) as [| [] | |], (sf_of y) as [| [] | |]; cbn [option_map CompOpp]; try reflexivity; rewrite Z.compare_antisym; reflexivity.
Qed.
Lemma relation_spec r x y : robust_relation r x y = true <-> related r x y.
Proof.
  unfold related. split.
  - destruct x as [a| | | | | | |]; try discriminate. destruct y as [b| | | | | | |]; try discriminate. cbn [robust_relation]. unfold relation, num_eqb, num_ltb, num_leb. cbv zeta.
    intros H. exists a, b. split; [reflexivity|]. split; [reflexivity|].
    destruct r; rewrite ?(num_cmp_sym (ModelNum.plain a) (ModelNum.plain b)) in H; destruct (num_cmp (ModelNum.plain a) (ModelNum.plain b)) as [[]|]; try discriminate H; exact I.
  - intros (a & b & -> & -> & H). cbn [robust_relation]. unfold relation, num_eqb, num_ltb, num_leb. cbv zeta.
    destruct r; rewrite ?(num_cmp_sym (ModelNum.plain a) (ModelNum.plain b)); destruct (num_cmp (ModelNum.plain a) (ModelNum.plain b)) as [[]|]; try destruct H; reflexivity.
Qed.
Lemma query_yields q : forall v, simple_query q -> named v -> yields (eval_tree q v) (can q v).
Proof.
  induction q as [a IHa b IHb|a IHa b IHb|a IHa|r a b|p a IHa|p]; intros v S N; cbn [simple_query] in S; cbn [eval_tree].
  - destruct S as [Sa Sb]. eapply yields_ext; [|apply yields_product; [exact (IHa v Sa N)|exact (IHb v Sb N)]].
    intros z. split; [intros (x & y & X & Y & ->); constructor; assumption|intros H; inversion H; subst; eauto 6].
  - destruct S as [Sa Sb]. eapply yields_ext; [|apply yields_product; [exact (IHa v Sa N)|exact (IHb v Sb N)]].
    intros z. split; [intros (x & y & X & Y & ->); constructor; assumption|intros H; inversion H; subst; eauto 6].
  - destruct (IHa v S N) as [A1 A2]. destruct (eval_tree a v) as [l [e|]]; [split; [intros ? []|discriminate]|]. cbn [fst snd] in *. split; cbn [fst snd].
    + intros z I. apply in_map_iff in I as [x [<- I]]. constructor. auto.
    + intros _ z H. inversion H; subst. apply in_map. auto.
  - destruct S as [Sa Sb]. eapply yields_ext; [|apply yields_product; [exact (expr_yields a v Sa N)|exact (expr_yields b v Sb N)]].
    intros z. split.
    + intros (x & y & X & Y & ->). destruct (robust_relation r x y) eqn:E; [apply relation_spec in E; econstructor; eassumption|].
      eapply can_not_rel; [eassumption|eassumption|]. rewrite <- relation_spec. congruence.
    + intros H. inversion H as [| | |? ? ? ? x y X Y R|? ? ? ? x y X Y R| | |]; subst; exists x, y; (do 2 (split; [assumption|])).
      * apply relation_spec in R. congruence.
      * rewrite <- relation_spec in R. destruct (robust_relation r x y); congruence.
  - destruct S as [Sp Sa]. eapply yields_ext; [|apply yields_bind with (P := instance p v) (Q := fun q b => (exists x, path_lookup q v = Ok x /\ can a x b) \/ (path_exists q v = false /\ b = false)); [apply generator_yields; auto|]].
    + intros b. split.
      * intros [q [I [[x [E C]]|[E ->]]]]; [eapply can_prefix; eauto|eapply can_no_prefix; eauto].
      * intros H. inversion H; subst; eauto 7.
    + intros q I. destruct (path_lookup q v) as [x|e] eqn:E.
      * eapply yields_ext; [|exact (IHa x Sa (named_lookup _ _ _ N E))]. intros b. split; [eauto|].
        intros [[x' [[= <-] C]]|[X _]]; [exact C|]. apply exists_false in X as [e X]. congruence.
      * eapply yields_ext; [|apply yields_one]. intros b. split; [intros <-; right; split; [apply exists_false; eauto|reflexivity]|].
        intros [[x [X _]]|[_ ->]]; [discriminate|reflexivity].
  - eapply yields_ext; [|apply yields_bind with (P := instance p v) (Q := fun q b => path_exists q v = b); [apply generator_yields; auto|intros q I; apply yields_one]].
    intros b. split; [intros [q [I <-]]; constructor; exact I|intros H; inversion H; subst; eauto].
Qed.

Lemma query_decides q v b : simple_query q -> named v -> eval_tree_print q v = Ok b -> b = true <-> can q v true.
Proof.
  intros S N. destruct (query_yields q v S N) as [Y1 Y2]. unfold eval_tree_print.
  destruct (existsb (fun x => x) (fst (eval_tree q v))) eqn:E.
  - intros [= <-]. split; [intros _|reflexivity]. apply existsb_exists in E as [x [I ->]]. auto.
  - destruct (snd (eval_tree q v)) eqn:X; [discriminate|]. intros [= <-]. split; [discriminate|]. intros C.
    assert (existsb (fun x => x) (fst (eval_tree q v)) = true) by (apply existsb_exists; exists true; auto). congruence.
Qed.

(** ** For the examples *)

Lemma named_dict d : Forall (fun kx => valid_key (fst kx) /\ fst kx <> star /\ named (snd kx)) d -> named (VDict d).
Proof.
  intros F p d' k. rewrite Forall_forall in F. destruct p as [|k0 p]; cbn [path_lookup item].
  - intros [= <-] I. apply in_map_iff in I as [kx [<- I]]. destruct (F kx I) as [A [B _]]. auto.
  - destruct (dget k0 d) as [x|] eqn:E; [|discriminate]. cbn [bind]. apply dget_in in E. destruct (F _ E) as [_ [_ N]]. exact (N p d' k).
Qed.
Lemma named_list l : Forall named l -> named (VList l).
Proof.
  intros F p d' k. rewrite Forall_forall in F. destruct p as [|k0 p]; cbn [path_lookup item]; [discriminate|].
  destruct k0 as [z|]; [|discriminate]. destruct (z <? 0); [discriminate|]. destruct (nth_error l (Z.to_nat z)) as [x|] eqn:E; [|discriminate].
  cbn [bind]. apply nth_error_In in E. exact (F _ E p d' k).
Qed.
Lemma named_num x : named (VNum x).
Proof. intros [|k0 p] d k; cbn [path_lookup item]; discriminate. Qed.
Lemma named_str s : named (VStr s).
Proof.
  intros p. revert s. induction p as [|k0 p IH]; intros s d k; cbn [path_lookup item]; [discriminate|].
  destruct k0 as [z|]; [|discriminate]. destruct (z <? 0); [discriminate|]. destruct (nth_error s (Z.to_nat z)); [|discriminate]. cbn [bind]. apply IH.
Qed.
Lemma letters_valid (s : str) : Forall (fun c => is_letter c = true) s -> s <> [] -> valid_key (KStr s).
Proof.
  intros F N. right. destruct s as [|c r]; [congruence|]. assert (C : is_letter c = true) by (inversion F; assumption).
  split; [revert F; apply Forall_impl; left; assumption|]. split; [left; intros ->; discriminate|].
  intros c' r' [= <- <-]. clear -C. destruct c as [[] [] [] [] [] [] [] []]; first [discriminate C|reflexivity].
Qed.
