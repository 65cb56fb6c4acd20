(** Paths (C37-C40). *)
From Coq Require Import Ascii String ZArith Bool Lia List.
From Verif Require Import PyBase ModelInterp ModelPath SpecInterp SpecPath ProofPyBase ProofInterpSec.
Import ListNotations.
Open Scope Z_scope.

(** ** Lists *)

Lemma length_upd {A} (l : list A) i v : length (list_upd l i v) = length l.
Proof. revert i. induction l as [|x l IH]; intros [|i]; cbn; auto. Qed.
Lemma nth_upd_same {A} (l : list A) i v : (i < length l)%nat -> nth_error (list_upd l i v) i = Some v.
Proof. revert i. induction l as [|x l IH]; intros [|i] H; cbn in *; try lia; auto. apply IH. lia. Qed.
Lemma nth_upd_other {A} (l : list A) i j v : i <> j -> nth_error (list_upd l i v) j = nth_error l j.
Proof. revert i j. induction l as [|x l IH]; intros [|i] [|j] H; cbn; auto; try congruence. Qed.
Lemma upd_same {A} (l : list A) i v : nth_error l i = Some v -> list_upd l i v = l.
Proof. revert i. induction l as [|x l IH]; intros [|i] H; cbn in *; try congruence. rewrite IH; auto. Qed.
Lemma upd_app_last {A} (l : list A) v w : list_upd (l ++ [v]) (length l) w = l ++ [w].
Proof. induction l as [|x l IH]; cbn; [reflexivity|]. rewrite IH. reflexivity. Qed.
Lemma nth_app_last {A} (l : list A) v : nth_error (l ++ [v]) (length l) = Some v.
Proof. induction l; cbn; auto. Qed.

Lemma lookup_app p q c : path_lookup (p ++ q) c = (do x <- path_lookup p c; path_lookup q x).
Proof. revert c. induction p as [|k p IH]; intros c; cbn [path_lookup app bind]; [reflexivity|]. destruct (item c k); cbn [bind]; auto. Qed.

(** ** Changes at one element *)

(** [cur'] is [cur] with the element [el] set to [c]; a list may have become longer *)
Record put_at (el : key) (c : val) (cur cur' : val) : Prop := {
  pa_same : item cur' el = Ok c;
  pa_other : forall k w, k <> el -> item cur' k = Ok w <-> item cur k = Ok w
}.

Lemma put_dict el c d : put_at el c (VDict d) (VDict (dset el c d)).
Proof.
  split; cbn [item].
  - rewrite dget_dset_same. reflexivity.
  - intros k w N. rewrite dget_dset_other by exact N. tauto.
Qed.
Lemma put_list i c l : 0 <= i < Z.of_nat (length l) -> put_at (KInt i) c (VList l) (VList (list_upd l (Z.to_nat i) c)).
Proof.
  intros R. split; cbn [item].
  - rewrite (proj2 (Z.ltb_ge i 0)) by lia. rewrite nth_upd_same by lia. reflexivity.
  - intros [j|s] w N; [|tauto]. destruct (j <? 0) eqn:J; [tauto|]. apply Z.ltb_ge in J.
    rewrite nth_upd_other; [tauto|]. intros Q. apply N. f_equal. lia.
Qed.
Lemma put_append i c l : i = Z.of_nat (length l) -> put_at (KInt i) c (VList l) (VList (l ++ [c])).
Proof.
  intros ->. split; cbn [item].
  - rewrite (proj2 (Z.ltb_ge (Z.of_nat (length l)) 0)) by lia. rewrite Nat2Z.id, nth_app_last. reflexivity.
  - intros [j|s] w N; [|tauto]. destruct (j <? 0) eqn:J; [tauto|]. apply Z.ltb_ge in J.
    destruct (Z.to_nat j <? length l)%nat eqn:E.
    + apply Nat.ltb_lt in E. rewrite nth_error_app1 by exact E. tauto.
    + apply Nat.ltb_ge in E. assert (Z.to_nat j <> length l) by (intros Q; apply N; f_equal; lia).
      rewrite (proj2 (nth_error_None (l ++ [c]) _)), (proj2 (nth_error_None l _)); [tauto|lia|rewrite app_length; cbn; lia].
Qed.
Lemma putitem_put el c cur x : item cur el = Ok x -> container cur -> put_at el c cur (putitem el c cur).
Proof.
  intros I [[d ->]|[l ->]]; [apply put_dict|]. destruct el as [i|s]; [|discriminate].
  cbn [item] in I. cbn [putitem]. apply put_list. destruct (i <? 0) eqn:E; [discriminate|]. apply Z.ltb_ge in E.
  destruct (nth_error l (Z.to_nat i)) eqn:N; [|discriminate]. assert (nth_error l (Z.to_nat i) <> None) as N' by congruence.
  apply nth_error_Some in N'. lia.
Qed.

(** what happens at the first element of a path: the object there, or a new one, goes through [k] *)
Inductive stepped (el : key) (k : val -> result unit * val) (cur : val) : result unit * val -> Prop :=
| st_fail e : stepped el k cur (Err e, cur)
| st_text s e : cur = VStr s -> stepped el k cur (Err e, cur)
| st_old c r c' cur' : container cur -> item cur el = Ok c -> k c = (r, c') -> put_at el c' cur cur' -> stepped el k cur (r, cur')
| st_new c r c' cur' : container cur -> (forall w, item cur el <> Ok w) -> c = VDict [] \/ c = VList [] -> k c = (r, c') -> put_at el c' cur cur' -> stepped el k cur (r, cur').

Lemma on_setdefault_stepped el new cur k : new = VDict [] \/ new = VList [] -> stepped el k cur (on_setdefault el new cur k).
Proof.
  intros N. destruct cur; try apply st_fail. cbn [on_setdefault].
  destruct (k (match dget el d with Some c => c | None => new end)) as [r c] eqn:K. destruct (dget el d) as [w|] eqn:G.
  - eapply st_old; [left; eauto| |exact K|apply put_dict]. cbn [item]. rewrite G. reflexivity.
  - eapply st_new; [left; eauto| |exact N|exact K|apply put_dict]. cbn [item]. rewrite G. discriminate.
Qed.

(** strings are not changed and nothing is set in them *)
Definition inert (k : val -> result unit * val) : Prop := forall s, exists e, k (VStr s) = (Err e, VStr s).

Lemma on_list_setdefault_stepped i new cur k : new = VDict [] \/ new = VList [] -> inert k ->
  stepped (KInt i) k cur (on_list_setdefault i new cur k).
Proof.
  intros N IN. destruct cur as [| s | l | d | | | |]; try apply st_fail; cbn [on_list_setdefault].
  - destruct ((i <? 0) || (Z.of_nat (length s) <? i)); [apply st_fail|]. destruct (i =? _); [apply st_fail|].
    destruct (nth_error s (Z.to_nat i)) as [c|]; [|apply st_fail]. destruct (IN [c]) as [e ->]. apply st_fail.
  - destruct ((i <? 0) || (Z.of_nat (length l) <? i)) eqn:R; [apply st_fail|]. apply orb_false_iff in R as [R1 R2].
    apply Z.ltb_ge in R1, R2. destruct (i =? Z.of_nat (length l)) eqn:E.
    + apply Z.eqb_eq in E. subst i. rewrite Nat2Z.id, nth_app_last. destruct (k new) as [r c'] eqn:K. rewrite upd_app_last.
      eapply st_new; [right; eauto| |exact N|exact K|apply put_append; reflexivity].
      intros w. cbn [item]. rewrite (proj2 (Z.ltb_ge (Z.of_nat (length l)) 0)) by lia.
      rewrite Nat2Z.id, (proj2 (nth_error_None l _)) by lia. discriminate.
    + apply Z.eqb_neq in E. destruct (nth_error l (Z.to_nat i)) as [c|] eqn:NT; [|apply st_fail].
      destruct (k c) as [r c'] eqn:K. eapply st_old; [right; eauto| |exact K|apply put_list; lia].
      cbn [item]. rewrite (proj2 (Z.ltb_ge i 0)) by lia. rewrite NT. reflexivity.
  - destruct ((i <? 0) || (Z.of_nat (length d) <? i)); [apply st_fail|]. destruct (i =? _); [apply st_fail|].
    destruct (dget (KInt i) d) as [c|] eqn:G; [|apply st_fail]. destruct (k c) as [r c'] eqn:K.
    eapply st_old; [left; eauto| |exact K|apply put_dict]. cbn [item]. rewrite G. reflexivity.
Qed.

(** the last element *)
Inductive placed (el : key) (v : val) (cur : val) : result unit * val -> Prop :=
| pl_fail e : placed el v cur (Err e, cur)
| pl_ok cur' : container cur -> put_at el v cur cur' -> placed el v cur (Ok tt, cur').
Lemma setitem_placed el v cur : placed el v cur (setitem el v cur).
Proof.
  destruct cur as [| s | l | d | | | |]; try apply pl_fail; cbn [setitem].
  - destruct el as [i|s]; [|apply pl_fail]. destruct ((i <? 0) || _) eqn:R; [apply pl_fail|]. apply orb_false_iff in R as [R1 R2].
    apply Z.ltb_ge in R1. apply Z.leb_gt in R2. apply pl_ok; [right; eauto|]. apply put_list. lia.
  - apply pl_ok; [left; eauto|]. apply put_dict.
Qed.
Lemma list_set_placed i v cur : placed (KInt i) v cur (list_set i v cur).
Proof.
  destruct cur as [| s | l | d | | | |]; try apply pl_fail; cbn [list_set].
  - destruct ((i <? 0) || _); [apply pl_fail|]. destruct (i =? _); apply pl_fail.
  - destruct ((i <? 0) || _) eqn:R; [apply pl_fail|]. apply orb_false_iff in R as [R1 R2]. apply Z.ltb_ge in R1, R2.
    destruct (i =? Z.of_nat (length l)) eqn:E.
    + apply Z.eqb_eq in E. apply pl_ok; [right; eauto|]. apply put_append. exact E.
    + apply Z.eqb_neq in E. apply pl_ok; [right; eauto|]. apply put_list. lia.
  - destruct ((i <? 0) || _); [apply pl_fail|]. destruct (i =? _); [apply pl_fail|]. apply pl_ok; [left; eauto|]. apply put_dict.
Qed.

Lemma path_set_inert o lead p v : p <> [] -> inert (path_set o lead p v).
Proof.
  revert lead. induction p as [|el r IH]; intros lead N s; [contradiction|]. cbn [path_set].
  destruct (po_dict o || _).
  - destruct r; eexists; reflexivity.
  - destruct r as [|next r].
    + destruct el as [i|]; [|eexists; reflexivity]. cbn [list_set].
      destruct ((i <? 0) || _); [eexists; reflexivity|]. destruct (i =? _); eexists; reflexivity.
    + destruct el as [i|]; [|eexists; reflexivity]. cbn [on_list_setdefault].
      destruct ((i <? 0) || _); [eexists; reflexivity|]. destruct (i =? _); [eexists; reflexivity|].
      destruct (nth_error s (Z.to_nat i)); [|eexists; reflexivity].
      edestruct IH as [e ->]; [discriminate|]. eexists; reflexivity.
Qed.

Lemma path_set_cons o lead el n r v cur : exists lead', stepped el (path_set o lead' (n :: r) v) cur (path_set o lead (el :: n :: r) v cur).
Proof.
  exists (lead && match el with KInt _ => true | KStr _ => false end). remember (n :: r) as q. cbn [path_set]. subst q.
  destruct (po_dict o || _); [apply on_setdefault_stepped; auto|].
  assert (N : match n with KInt _ => VList [] | KStr _ => VDict [] end = VDict [] \/ match n with KInt _ => VList [] | KStr _ => VDict [] end = VList [])
    by (destruct n; auto).
  destruct el; [|apply on_setdefault_stepped; exact N]. apply on_list_setdefault_stepped; [exact N|]. apply path_set_inert. discriminate.
Qed.
Lemma path_set_one o lead el v cur : placed el v cur (path_set o lead [el] v cur).
Proof.
  cbn [path_set]. destruct (po_dict o || _); [apply setitem_placed|]. destruct el; [apply list_set_placed|apply setitem_placed].
Qed.

(** ** C37 *)

Theorem get_after_set o p v : p <> [] -> forall lead d d', path_set o lead p v d = (Ok tt, d') -> path_lookup p d' = Ok v.
Proof.
  induction p as [|el p IH]; intros N lead d d' H; [contradiction|]. destruct p as [|n r].
  - pose proof (path_set_one o lead el v d) as S. rewrite H in S. inversion S as [|c C P]; subst. cbn [path_lookup]. rewrite (pa_same _ _ _ _ P). reflexivity.
  - destruct (path_set_cons o lead el n r v d) as [lead' S]. rewrite H in S.
    inversion S as [ | |c r' c' cur' C I K P|c r' c' cur' C I X K P]; subst; remember (n :: r) as q eqn:E;
      cbn [path_lookup]; rewrite (pa_same _ _ _ _ P); cbn [bind]; (eapply IH; [subst; discriminate|exact K]).
Qed.

Lemma lookup_empty q w c : c = VDict [] \/ c = VList [] -> q <> [] -> path_lookup q c <> Ok w.
Proof.
  intros E N. destruct q as [|k q]; [contradiction|]. cbn [path_lookup]. destruct E as [->| ->]; [discriminate|].
  destruct k as [i|s]; cbn [item]; [|discriminate]. destruct (i <? 0); [discriminate|]. destruct (Z.to_nat i); discriminate.
Qed.

Theorem others_after_set o p v : p <> [] -> forall lead d r d' q w, path_set o lead p v d = (r, d') -> unrelated p q ->
  path_lookup q d' = Ok w <-> path_lookup q d = Ok w.
Proof.
  induction p as [|el p IH]; intros N lead d r d' q w H U; [contradiction|].
  destruct q as [|k q]; [destruct U as [_ U]; exfalso; apply U; apply prefix_nil|].
  assert (O : forall c' , put_at el c' d d' -> k <> el -> path_lookup (k :: q) d' = Ok w <-> path_lookup (k :: q) d = Ok w).
  { intros c' P D. cbn [path_lookup]. destruct (item d' k) as [x|e] eqn:I1.
    - rewrite (proj1 (pa_other _ _ _ _ P _ _ D) I1). tauto.
    - destruct (item d k) as [y|e2] eqn:I2; [|split; discriminate]. rewrite (proj2 (pa_other _ _ _ _ P _ _ D) I2) in I1. discriminate. }
  destruct p as [|n s].
  - pose proof (path_set_one o lead el v d) as S. rewrite H in S. inversion S as [|c C P]; subst; [tauto|].
    apply (O v P). intros ->. destruct U as [U _]. apply U. apply prefix_cons, prefix_nil.
  - destruct (path_set_cons o lead el n s v d) as [lead' S]. rewrite H in S.
    inversion S as [ | |c r' c' cur' C I K P|c r' c' cur' C I X K P]; subst; try tauto.
    + destruct (key_dec k el) as [->|D]; [|exact (O c' P D)]. apply unrelated_cons in U.
      cbn [path_lookup]. rewrite (pa_same _ _ _ _ P), I. cbn [bind]. refine (IH _ _ _ _ _ _ _ K U). discriminate.
    + destruct (key_dec k el) as [->|D]; [|exact (O c' P D)]. apply unrelated_cons in U.
      cbn [path_lookup]. rewrite (pa_same _ _ _ _ P). cbn [bind]. destruct (item d el) as [x|] eqn:I2; [destruct (I x eq_refl)|]. cbn [bind].
      split; [|discriminate]. intros L. apply (IH ltac:(discriminate) _ _ _ _ _ w K U) in L. destruct (lookup_empty q w c X); [|exact L].
      intros ->. destruct U as [_ U]. apply U, prefix_nil.
Qed.

(** a failing call loses nothing *)
Theorem failed_set_keeps o p v : forall lead d e d' q w, path_set o lead p v d = (Err e, d') -> ~ container w ->
  path_lookup q d = Ok w -> path_lookup q d' = Ok w.
Proof.
  induction p as [|el p IH]; intros lead d e d' q w H NW L; [discriminate|].
  destruct p as [|n s].
  - pose proof (path_set_one o lead el v d) as S. rewrite H in S. inversion S; subst; exact L.
  - destruct (path_set_cons o lead el n s v d) as [lead' S]. rewrite H in S.
    inversion S as [ | |c r' c' cur' C I K P|c r' c' cur' C I X K P]; subst; try exact L; (destruct q as [|k q]; [injection L as <-; contradiction|]);
      cbn [path_lookup] in L |- *; (destruct (key_dec k el) as [->|D]).
    + rewrite (pa_same _ _ _ _ P). rewrite I in L. cbn [bind] in L |- *. exact (IH _ _ _ _ _ _ K NW L).
    + destruct (item d k) as [x|] eqn:E; [|discriminate]. rewrite (proj2 (pa_other _ _ _ _ P _ _ D) E). exact L.
    + destruct (item d el) as [x|]; [destruct (I x eq_refl)|discriminate].
    + destruct (item d k) as [x|] eqn:E; [|discriminate]. rewrite (proj2 (pa_other _ _ _ _ P _ _ D) E). exact L.
Qed.

Theorem set_succeeds o p v : po_dict o = true -> forall lead d,
  (forall a b x, p = a ++ b -> b <> [] -> path_lookup a d = Ok x -> exists dd, x = VDict dd) ->
  exists d', path_set o lead p v d = (Ok tt, d').
Proof.
  intros O. induction p as [|el p IH]; intros lead d A; [eexists; reflexivity|].
  destruct (A [] (el :: p) d eq_refl ltac:(discriminate) eq_refl) as [dd ->].
  cbn [path_set]. rewrite O. cbn [orb]. destruct p as [|n r]; [eexists; reflexivity|]. cbn [on_setdefault].
  destruct (IH (lead && match el with KInt _ => true | KStr _ => false end) (match dget el dd with Some c => c | None => VDict [] end)) as [c' ->]; [|eexists; reflexivity].
  intros a b x E NB L. destruct (dget el dd) as [c|] eqn:G.
  - apply (A (el :: a) b x); [rewrite E; reflexivity|exact NB|]. cbn [path_lookup item]. rewrite G. exact L.
  - destruct a as [|k a]; [injection L as <-; eauto|]. destruct (lookup_empty (k :: a) x (VDict [])); auto. discriminate.
Qed.

Lemma lookup_error p : forall d e, path_lookup p d = Err e -> e = KeyError \/ e = IndexError \/ e = TypeError.
Proof.
  induction p as [|k p IH]; intros d e H; [discriminate|]. cbn [path_lookup] in H. destruct (item d k) as [x|e'] eqn:I; cbn [bind] in H; [eauto|].
  injection H as ->. destruct d as [| s | l | dd | | | |]; destruct k; cbn [item] in I; try (injection I as <-; auto).
  - destruct (z <? 0); [injection I as <-; auto|]. destruct (nth_error _ _); [discriminate|injection I as <-; auto].
  - destruct (z <? 0); [injection I as <-; auto|]. destruct (nth_error _ _); [discriminate|injection I as <-; auto].
  - destruct (dget _ _); [discriminate|injection I as <-; auto].
  - destruct (dget _ _); [discriminate|injection I as <-; auto].
Qed.

Theorem exists_iff p d : path_exists p d = true <-> exists v, path_lookup p d = Ok v.
Proof.
  unfold path_exists. destruct (path_lookup p d) as [v|e] eqn:E; [split; eauto|].
  split; [|intros [v H]; discriminate]. intros H. destruct (lookup_error _ _ _ E) as [->|[->| ->]]; discriminate H.
Qed.

Lemma item_container_or d k x : item d k = Ok x -> container d \/ exists s, d = VStr s /\ exists c, x = VStr [c].
Proof.
  destruct d as [| s | l | dd | | | |]; destruct k; cbn [item]; intros H; try discriminate; unfold container; eauto.
  right. exists s. split; [reflexivity|]. destruct (z <? 0); [discriminate|]. destruct (nth_error s (Z.to_nat z)); [|discriminate]. injection H as <-. eauto.
Qed.
Lemma lookup_text p s x : path_lookup p (VStr s) = Ok x -> exists t, x = VStr t.
Proof.
  revert s. induction p as [|k p IH]; intros s H; [injection H as <-; eauto|]. cbn [path_lookup] in H. destruct (item (VStr s) k) as [y|] eqn:I; [|discriminate].
  destruct (item_container_or _ _ _ I) as [[[d D]|[l D]]|(t & _ & c & ->)]; try discriminate. cbn [bind] in H. eauto.
Qed.

Lemma dget_ddel_same k d : unique_keys d -> dget k (ddel k d) = None.
Proof.
  unfold unique_keys. induction d as [|[k' v] d IH]; cbn [map fst dget ddel]; intros U; [reflexivity|]. inversion U as [|? ? NI ND]; subst.
  destruct (key_dec k k') as [->|D].
  - rewrite key_eqb_refl. clear -NI. induction d as [|[k2 v2] d IH]; [reflexivity|]. cbn [dget]. rewrite key_eqb_neq; [apply IH|]; intros Q; apply NI; [right; exact Q|left; symmetry; exact Q].
  - rewrite key_eqb_neq by exact D. cbn [dget]. rewrite key_eqb_neq by exact D. auto.
Qed.

Lemma app_removelast {A} (p : list A) n x : p <> [] -> removelast (n :: p) = n :: removelast p /\ last (n :: p) x = last p x.
Proof. destruct p; [contradiction|]. split; reflexivity. Qed.

Theorem remove_spec p : forall d d' dd, path_remove p d = (Ok tt, d') -> path_lookup (removelast p) d = Ok (VDict dd) -> unique_keys dd ->
  path_exists p d' = false /\ forall q w, unrelated p q -> path_lookup q d' = Ok w <-> path_lookup q d = Ok w.
Proof.
  induction p as [|el p IH]; intros d d' dd H L U; [discriminate|].
  destruct p as [|n r].
  - cbn [removelast path_lookup] in L. injection L as ->. cbn [path_remove delitem] in H. destruct (dget el dd) as [x|]; [|discriminate]. injection H as <-.
    split.
    + unfold path_exists. cbn [path_lookup item]. rewrite dget_ddel_same by exact U. reflexivity.
    + intros [|k q] w [U1 U2]; [exfalso; apply U2, prefix_nil|]. cbn [path_lookup item].
      rewrite dget_ddel_other; [tauto|]. intros ->. apply U1. apply prefix_cons, prefix_nil.
  - remember (n :: r) as p' eqn:E. assert (NP : p' <> []) by (subst; discriminate). rewrite (proj1 (app_removelast p' el (KStr []) NP)) in L.
    cbn [path_lookup] in L. destruct (item d el) as [c|] eqn:I; [|discriminate]. cbn [bind] in L.
    assert (H' : (let '(x, c') := path_remove p' c in (x, putitem el c' d)) = (Ok tt, d')).
    { rewrite <- H. cbn [path_remove]. rewrite E. rewrite <- E. rewrite I. reflexivity. }
    clear H. destruct (path_remove p' c) as [x c'] eqn:R. injection H' as -> <-.
    destruct (item_container_or _ _ _ I) as [C|(s & -> & t & ->)]; [|apply lookup_text in L as [? ?]; discriminate].
    pose proof (putitem_put el c' d c I C) as P. destruct (IH _ _ _ R L U) as [X O]. split.
    + unfold path_exists in X |- *. cbn [path_lookup]. rewrite (pa_same _ _ _ _ P). exact X.
    + intros [|k q] w UQ; [exfalso; apply (proj2 UQ), prefix_nil|]. cbn [path_lookup]. destruct (key_dec k el) as [->|D].
      * rewrite (pa_same _ _ _ _ P), I. cbn [bind]. apply O. exact (unrelated_cons _ _ _ UQ).
      * destruct (item d k) as [y|] eqn:I2; [rewrite (proj2 (pa_other _ _ _ _ P _ _ D) I2); tauto|].
        split; [|discriminate]. destruct (item (putitem el c' d) k) as [y|] eqn:I3; [|discriminate].
        apply (pa_other _ _ _ _ P _ _ D) in I3. congruence.
Qed.

Theorem remove_succeeds p : forall d dd v, p <> [] -> path_lookup (removelast p) d = Ok (VDict dd) -> path_lookup p d = Ok v ->
  exists d', path_remove p d = (Ok tt, d').
Proof.
  induction p as [|el p IH]; intros d dd v N L H; [contradiction|]. destruct p as [|n r].
  - cbn [removelast path_lookup] in L, H. injection L as ->. cbn [path_remove delitem]. cbn [item] in H. destruct (dget el dd); [eexists; reflexivity|discriminate].
  - remember (n :: r) as p' eqn:E. assert (NP : p' <> []) by (subst; discriminate). rewrite (proj1 (app_removelast p' el (KStr []) NP)) in L.
    cbn [path_lookup] in L, H. destruct (item d el) as [c|] eqn:I; [|discriminate]. cbn [bind] in L, H.
    destruct (IH c dd v NP L H) as [c' R]. cbn [path_remove]. rewrite E, <- E, I, R. eexists; reflexivity.
Qed.

(** ** C39 *)

Theorem path_eqb_iff p q : path_eqb p q = true <-> is_prefix p q \/ is_prefix q p.
Proof.
  unfold path_eqb. revert q. induction p as [|k p IH]; intros [|j q]; cbn [combine forallb fst snd].
  - split; [left; apply prefix_nil|reflexivity].
  - split; [left; apply prefix_nil|reflexivity].
  - split; [right; apply prefix_nil|reflexivity].
  - rewrite andb_true_iff, IH, key_eqb_eq. split.
    + intros (-> & [H|H]); [left|right]; apply prefix_cons; exact H.
    + intros [[c H]|[c H]]; injection H as -> ->; (split; [reflexivity|]); [left|right]; exists c; reflexivity.
Qed.

Theorem path_eqb_same_length p q : length p = length q -> path_eqb p q = true <-> p = q.
Proof.
  intros L. rewrite path_eqb_iff. split; [|intros ->; left; exists []; symmetry; apply app_nil_r].
  intros [[c ->]|[c ->]]; rewrite app_length in L; (destruct c; [symmetry; rewrite app_nil_r; reflexivity || apply app_nil_r|cbn in L; lia]) || idtac.
Qed.

(** ** C40 *)

Lemma at_path_app a b f root : at_path (a ++ b) f root = at_path a (at_path b f) root.
Proof. revert root. induction a as [|k a IH]; intros root; cbn [app at_path]; [reflexivity|]. destruct (item root k); [|reflexivity]. rewrite IH. reflexivity. Qed.

Lemma at_path_ext a f g : forall root c, path_lookup a root = Ok c -> f c = g c -> at_path a f root = at_path a g root.
Proof.
  induction a as [|k a IH]; intros root c L E; cbn [at_path path_lookup] in *; [injection L as ->; exact E|].
  destruct (item root k) as [x|]; [|discriminate]. cbn [bind] in L. rewrite (IH _ _ L E). reflexivity.
Qed.

Lemma remove_delete p root : p <> [] -> path_remove p root = at_path (removelast p) (delitem (last p (KStr []))) root.
Proof.
  revert root. induction p as [|el p IH]; intros root N; [contradiction|]. destruct p as [|n r]; [reflexivity|].
  remember (n :: r) as p' eqn:E. assert (NP : p' <> []) by (subst; discriminate).
  destruct (app_removelast p' el (KStr []) NP) as [-> ->]. cbn [at_path path_remove]. rewrite E, <- E.
  destruct (item root el) as [c|]; [|reflexivity]. rewrite IH by exact NP. reflexivity.
Qed.

Lemma removelast_app2 {A} (a b : list A) : b <> [] -> removelast (a ++ b) = a ++ removelast b.
Proof. apply removelast_app. Qed.
Lemma last_app2 {A} (a b : list A) x : b <> [] -> last (a ++ b) x = last b x.
Proof. intros N. induction a as [|y a IH]; [reflexivity|]. cbn [app]. destruct (a ++ b) eqn:E; [apply app_eq_nil in E as [_ E]; contradiction|]. rewrite <- E in *. cbn [last]. rewrite E. rewrite <- E. exact IH. Qed.

Lemma set_assign o : po_dict o = true -> forall p lead x c, p <> [] -> through_dicts p c ->
  path_set o lead p x c = at_path (removelast p) (setitem (last p (KStr [])) x) c.
Proof.
  intros O. induction p as [|el p IH]; intros lead x c N T; [contradiction|]. cbn [path_set]. rewrite O. cbn [orb].
  destruct p as [|n r]; [reflexivity|]. remember (n :: r) as p' eqn:E. assert (NP : p' <> []) by (subst; discriminate).
  destruct (app_removelast p' el (KStr []) NP) as [-> ->]. rewrite E, <- E.
  destruct (T [] (el :: p') eq_refl ltac:(discriminate)) as [d D]. cbn [path_lookup] in D. injection D as ->.
  destruct (T [el] p' eq_refl NP) as [d2 D2]. cbn [path_lookup item] in D2. cbn [on_setdefault at_path item].
  destruct (dget el d) as [y|] eqn:G; [|discriminate]. cbn [bind] in D2. injection D2 as ->. cbn [putitem]. rewrite <- IH with (lead := lead && match el with KInt _ => true | KStr _ => false end); [reflexivity|exact NP|].
  intros a b A B. destruct (T (el :: a) b) as [d3 D3]; [rewrite A; reflexivity|exact B|]. cbn [path_lookup item] in D3. rewrite G in D3. eauto.
Qed.

Theorem view_set_assign w k p x root c : po_dict (v_opts w) = true -> key_path k = Ok p -> p <> [] ->
  path_lookup (v_at w) root = Ok c -> through_dicts p c ->
  view_set w k x root = assign (v_at w ++ p) x root.
Proof.
  intros O K N L T. unfold view_set, assign. rewrite K. destruct (v_at w ++ p) eqn:E; [apply app_eq_nil in E as [_ E]; contradiction|]. rewrite <- E.
  rewrite removelast_app2, last_app2, at_path_app by exact N. apply (at_path_ext _ _ _ _ _ L). apply set_assign; assumption.
Qed.

Lemma at_path_ok a f : forall z c', at_path a f z = (Ok tt, c') -> exists y, path_lookup a z = Ok y.
Proof.
  induction a as [|k a IH]; intros z c' E; [eexists; reflexivity|]. cbn [at_path path_lookup] in *. destruct (item z k) as [y|]; [|discriminate].
  destruct (at_path a f y) as [r2 c2] eqn:E2. injection E as -> _. eauto.
Qed.

Theorem view_set_spec w k p x root root' : key_path k = Ok p -> p <> [] -> (forall c, path_lookup (v_at w) root = Ok c -> container c) ->
  view_set w k x root = (Ok tt, root') ->
  path_lookup (v_at w ++ p) root' = Ok x /\
  forall q y, unrelated (v_at w ++ p) q -> path_lookup q root' = Ok y <-> path_lookup q root = Ok y.
Proof.
  intros K N. unfold view_set. rewrite K. generalize (v_at w) as a. intros a. revert root root'. induction a as [|el a IH]; intros root root' C H.
  - split; [exact (get_after_set _ _ _ N _ _ _ H)|]. intros q y U. exact (others_after_set _ _ _ N _ _ _ _ _ y H U).
  - cbn [at_path] in H. destruct (item root el) as [c|] eqn:I; [|discriminate]. destruct (at_path a _ c) as [r c'] eqn:E. injection H as -> <-.
    assert (IC : forall c0, path_lookup a c = Ok c0 -> container c0).
    { intros c0 L. apply C. cbn [path_lookup]. rewrite I. exact L. }
    destruct (IH _ _ IC E) as [X O].
    assert (CR : container root).
    { destruct (item_container_or _ _ _ I) as [CR|(s & -> & t & ->)]; [exact CR|]. exfalso. destruct a as [|k2 a].
      - destruct (IC _ eq_refl) as [[? Q]|[? Q]]; discriminate Q.
      - cbn [at_path] in E. destruct (item (VStr [t]) k2) as [z|] eqn:I2; [|discriminate].
        destruct (path_lookup a z) as [y|] eqn:L.
        + assert (T : exists s', y = VStr s').
          { destruct (item_container_or _ _ _ I2) as [[[? Q]|[? Q]]|(s3 & _ & c3 & ->)]; try discriminate. exact (lookup_text _ _ _ L). }
          destruct T as [s' ->]. destruct (IC (VStr s')) as [[? Q]|[? Q]]; try discriminate. cbn [path_lookup]. rewrite I2. exact L.
        + destruct (at_path a (path_set (v_opts w) true p x) z) as [r2 c2] eqn:E2. injection E as -> _. destruct (at_path_ok _ _ _ _ E2) as [y Y]. congruence. }
    pose proof (putitem_put el c' root c I CR) as P. cbn [app path_lookup]. split.
    + rewrite (pa_same _ _ _ _ P). exact X.
    + intros [|k0 q] y U; [exfalso; apply (proj2 U), prefix_nil|]. cbn [path_lookup]. destruct (key_dec k0 el) as [->|D].
      * rewrite (pa_same _ _ _ _ P), I. cbn [bind]. apply O. exact (unrelated_cons _ _ _ U).
      * destruct (item root k0) as [z|] eqn:I2; [rewrite (proj2 (pa_other _ _ _ _ P _ _ D) I2); tauto|].
        split; [|discriminate]. destruct (item (putitem el c' root) k0) as [z|] eqn:I3; [|discriminate].
        apply (pa_other _ _ _ _ P _ _ D) in I3. congruence.
Qed.

Theorem view_del_delete w k p root : (forall q, k <> PPath q) -> path_of k = Ok p -> p <> [] ->
  view_del w k root = delete (v_at w ++ p) root.
Proof.
  intros NP K N. unfold view_del, delete. assert (E : match k with PPath _ => (Err NameError, root) | _ => at_path (v_at w) (path_remove p) root end = at_path (v_at w) (path_remove p) root).
  { destruct k; try reflexivity. destruct (NP p0 eq_refl). }
  rewrite K. rewrite E. destruct (v_at w ++ p) eqn:E2; [apply app_eq_nil in E2 as [_ E2]; contradiction|]. rewrite <- E2.
  rewrite removelast_app2, last_app2, at_path_app by exact N. clear -N. revert root.
  induction (v_at w) as [|el a IH]; intros root; cbn [at_path]; [apply remove_delete; exact N|]. destruct (item root el); [|reflexivity]. rewrite IH. reflexivity.
Qed.

Theorem view_get_spec w k p root : key_path k = Ok p ->
  match path_lookup (v_at w ++ p) root with
  | Err e => view_get w k root = Err e
  | Ok x => (~ container x -> view_get w k root = Ok (GVal x)) /\
            (container x -> exists w', view_get w k root = Ok (GView w') /\ v_at w' = v_at w ++ p /\ view_object w' root = Ok x)
  end.
Proof.
  intros K. unfold view_get. rewrite K. cbn [bind]. rewrite lookup_app.
  destruct (do c <- path_lookup (v_at w) root; path_lookup p c) as [x|e] eqn:L; cbn [bind]; [|reflexivity]. split.
  - intros NC. destruct x; try reflexivity; exfalso; apply NC; unfold container; eauto.
  - intros [[d ->]|[l ->]]; (eexists; split; [reflexivity|]; split; [reflexivity|]); unfold view_object; cbn [v_at]; rewrite lookup_app; exact L.
Qed.

Theorem variable_get_spec p root : p <> [] -> variable_get p root = path_lookup p root.
Proof.
  intros N. unfold variable_get. rewrite <- lookup_app, <- app_removelast_last by exact N. reflexivity.
Qed.
Theorem variable_set_spec p x root : p <> [] -> variable_set p x root = assign p x root.
Proof.
  intros N. unfold variable_set, assign. destruct p; [contradiction|]. generalize (removelast (k :: p)) as a. intros a. revert root.
  induction a as [|el a IH]; intros root; cbn [at_path]; [reflexivity|]. destruct (item root el); [|reflexivity]. rewrite IH. reflexivity.
Qed.
