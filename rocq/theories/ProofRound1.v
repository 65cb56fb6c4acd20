(** C31: dictionaries as sets of paths. *)
From Coq Require Import Ascii String ZArith Bool Lia List.
From Coq Require Import Floats.SpecFloat.
From Verif Require Import PyBase PyFloat ModelFortran ModelRecords ModelNum ModelRecipe ModelInterp.
From Verif Require Import SpecFields SpecInterp SpecRound ProofPyBase ProofInterp ProofInterpSec.
Import ListNotations.
Open Scope Z_scope.

(** ** Paths *)

Lemma path_get_app p q v : path_get (p ++ q) v = match path_get p v with Some w => path_get q w | None => None end.
Proof.
  revert v; induction p as [|k p IH]; intros v; [reflexivity|]. cbn [app path_get].
  destruct v; try reflexivity. destruct (dget k d); [apply IH|reflexivity].
Qed.

Lemma path_get_leaf k q v : ~ is_dict v -> path_get (k :: q) v = None.
Proof. intros N. destruct v; try reflexivity. exfalso; apply N; eexists; reflexivity. Qed.

Lemma prefix_refl {A} (p : list A) : is_prefix p p.
Proof. exists []. now rewrite app_nil_r. Qed.
Lemma prefix_app {A} (p q : list A) : is_prefix p (p ++ q).
Proof. exists q. reflexivity. Qed.
Lemma prefix_cons_inv {A} (a b : A) p q : is_prefix (a :: p) (b :: q) -> a = b /\ is_prefix p q.
Proof. intros [c E]. injection E as -> ->. split; [reflexivity|now exists c]. Qed.
Lemma prefix_nil_inv {A} (p : list A) : is_prefix p [] -> p = [].
Proof. intros [c E]. destruct p; [reflexivity|discriminate]. Qed.
Lemma prefix_app_inv {A} (r p q : list A) : is_prefix (r ++ p) (r ++ q) -> is_prefix p q.
Proof. intros [c E]. rewrite <- app_assoc in E. apply app_inv_head in E. now exists c. Qed.
Lemma prefix_app_l {A} (r p q : list A) : is_prefix p q -> is_prefix (r ++ p) (r ++ q).
Proof. intros [c ->]. exists c. now rewrite app_assoc. Qed.
Lemma prefix_dec (p q : list key) : is_prefix p q \/ ~ is_prefix p q.
Proof.
  revert q; induction p as [|k p IH]; intros q; [left; apply prefix_nil|].
  destruct q as [|k' q]; [right; intros X; apply prefix_nil_inv in X; discriminate|].
  destruct (key_dec k k') as [->|N].
  - destruct (IH q); [left; now apply prefix_cons|right]. intros X. apply prefix_cons_inv in X. tauto.
  - right. intros X. apply prefix_cons_inv in X. tauto.
Qed.

(** the same value, or both dictionaries *)
Definition same_shape (a b : option val) : Prop := a = b \/ exists d d', a = Some (VDict d) /\ b = Some (VDict d').
Lemma shape_refl a : same_shape a a. Proof. now left. Qed.
Lemma shape_sym a b : same_shape a b -> same_shape b a.
Proof. intros [->|(d & d' & -> & ->)]; [now left|right; eauto]. Qed.
Lemma shape_trans a b c : same_shape a b -> same_shape b c -> same_shape a c.
Proof.
  intros [->|(d & d' & -> & ->)] H; [exact H|]. destruct H as [<-|(e & e' & E & ->)]; right; eauto.
Qed.
Lemma shape_none a b : same_shape a b -> a = None -> b = None.
Proof. intros [->|(d & d' & -> & ->)]; [auto|discriminate]. Qed.
Lemma shape_leaf a b v : same_shape a b -> a = Some v -> ~ is_dict v -> b = Some v.
Proof. intros [->|(d & d' & -> & ->)] E N; [auto|]. injection E as <-. destruct N; eexists; reflexivity. Qed.
Lemma shape_dict a b d : same_shape a b -> a = Some (VDict d) -> exists d', b = Some (VDict d').
Proof. intros [->|(e & e' & -> & ->)] E; eauto. Qed.

Lemma path_prefix p q v w : path_get q v = Some w -> is_prefix p q -> p <> q -> exists d, path_get p v = Some (VDict d).
Proof.
  intros H [c ->] N. rewrite path_get_app in H. destruct (path_get p v) as [u|]; [|discriminate].
  destruct c as [|k c]; [rewrite app_nil_r in N; congruence|]. destruct u; try discriminate. eauto.
Qed.

Lemma put_get ks v : forall old w, path_get ks old = Some w ->
  (forall q, path_get (ks ++ q) (put_path ks v old) = path_get q v) /\
  (forall q, ~ is_prefix ks q -> same_shape (path_get q (put_path ks v old)) (path_get q old)).
Proof.
  induction ks as [|k ks IH]; intros old w H.
  - split; [reflexivity|]. intros q N. destruct N. apply prefix_nil.
  - cbn [path_get] in H. destruct old; try discriminate. cbn [put_path].
    destruct (dget k d) as [o|] eqn:E; [|discriminate]. destruct (IH o w H) as [A B]. split.
    + intros q. cbn [app]. rewrite path_get_dset_same. apply A.
    + intros q N. destruct q as [|k' q]; [right; cbn; eauto|].
      destruct (key_dec k' k) as [->|Nk].
      * rewrite path_get_dset_same. cbn [path_get]. rewrite E. apply B. intros X. apply N. now apply prefix_cons.
      * rewrite path_get_dset_other by exact Nk. apply shape_refl.
Qed.

(** ** The outermost dictionary *)

Fixpoint root (up : list frame) (d : dict) : dict :=
  match up with [] => d | f :: fs => root fs (outer f d) end.
Fixpoint pre (up : list frame) : list key :=
  match up with [] => [] | f :: fs => pre fs ++ frame_keys f end.
Definition opened (up : list frame) : Prop :=
  Forall (fun f => exists w, path_get (frame_keys f) (VDict (fr_dic f)) = Some w) up.

Lemma outer_put f d : VDict (outer f d) = put_path (frame_keys f) (VDict d) (VDict (fr_dic f)).
Proof.
  unfold outer. unfold frame_keys. cbn [put_path]. destruct (dget _ _); reflexivity.
Qed.
Lemma outer_in f d w q : path_get (frame_keys f) (VDict (fr_dic f)) = Some w ->
  path_get (frame_keys f ++ q) (VDict (outer f d)) = path_get q (VDict d).
Proof. intros H. rewrite outer_put. apply (put_get _ _ _ _ H). Qed.
Lemma outer_out f d d' w q : path_get (frame_keys f) (VDict (fr_dic f)) = Some w -> ~ is_prefix (frame_keys f) q ->
  same_shape (path_get q (VDict (outer f d))) (path_get q (VDict (outer f d'))).
Proof.
  intros H N. rewrite !outer_put. eapply shape_trans; [apply (put_get _ _ _ _ H); exact N|].
  apply shape_sym, (put_get _ _ _ _ H); exact N.
Qed.

Lemma root_in up : forall d, opened up -> forall p, path_get (pre up ++ p) (VDict (root up d)) = path_get p (VDict d).
Proof.
  induction up as [|f fs IH]; intros d O p; [reflexivity|]. inversion O as [|? ? [w Hw] O']; subst.
  cbn [pre root]. rewrite <- app_assoc, IH by exact O'. now apply outer_in with w.
Qed.
Lemma root_out up : forall d d', opened up -> forall p, ~ is_prefix (pre up) p ->
  same_shape (path_get p (VDict (root up d))) (path_get p (VDict (root up d'))).
Proof.
  induction up as [|f fs IH]; intros d d' O p N; [destruct N; apply prefix_nil|].
  inversion O as [|? ? [w Hw] O']; subst. cbn [pre root] in *.
  destruct (prefix_dec (pre fs) p) as [[q ->]|Np]; [|now apply IH].
  rewrite !root_in by exact O'. apply outer_out with w; [exact Hw|]. intros X. apply N. now apply prefix_app_l.
Qed.

Lemma root_get up d p : opened up -> path_get p (VDict d) = path_get (pre up ++ p) (VDict (root up d)).
Proof. intros O. symmetry. now apply root_in. Qed.
Lemma root_dget up d k : opened up -> dget k d = path_get (pre up ++ [k]) (VDict (root up d)).
Proof. intros O. rewrite root_in by exact O. cbn [path_get]. destruct (dget k d); reflexivity. Qed.

Lemma find_up_eq up d x : opened up -> find_up x d up =
  match path_get (pre up ++ [KStr x]) (VDict (root up d)) with
  | Some v => Some v
  | None => match up with [] => None | f :: fs => find_up x (outer f d) fs end
  end.
Proof. intros O. rewrite <- root_dget by exact O. destruct up; reflexivity. Qed.
Lemma ctrl_dic_eq up d : ctrl_dic d up = match dget (KStr $"MAT") d with
  | Some _ => d | None => match up with [] => d | f :: fs => ctrl_dic (outer f d) fs end end.
Proof. destruct up; reflexivity. Qed.

(** ** Storing a value *)

Lemma map_KInt_app a b : map KInt (a ++ b) = map KInt a ++ map KInt b.
Proof. apply map_app. Qed.

(** no value other than dictionaries on the way to [ks] *)
Definition free (ks : list key) (v : val) : Prop :=
  forall q w, is_prefix q ks -> q <> ks -> path_get q v = Some w -> is_dict w.
Lemma free_cons k ks d : free (k :: ks) (VDict d) ->
  free ks (match dget k d with Some o => o | None => VDict [] end).
Proof.
  intros F q w P N H. destruct (dget k d) as [o|] eqn:E.
  - apply (F (k :: q)); [now apply prefix_cons|congruence|]. cbn [path_get]. now rewrite E.
  - destruct q; [cbn in H; injection H as <-; eexists; reflexivity|discriminate].
Qed.

Lemma set_indexed_get idcs v : forall cur, free (map KInt idcs) cur -> (idcs <> [] -> is_dict cur) ->
  exists arr, set_indexed idcs v cur = Ok arr /\
    (forall q, path_get (map KInt idcs ++ q) arr = path_get q v) /\
    (forall q, ~ is_prefix (map KInt idcs) q ->
       (is_prefix q (map KInt idcs) /\ exists d, path_get q arr = Some (VDict d)) \/ path_get q arr = path_get q cur).
Proof.
  induction idcs as [|i idcs IH]; intros cur F Dc.
  - exists v. split; [reflexivity|]. split; [reflexivity|]. intros q N. destruct N. apply prefix_nil.
  - destruct (Dc ltac:(discriminate)) as [d ->]. cbn [set_indexed map] in *.
    pose proof (free_cons _ _ _ F) as F'.
    set (sub := match dget (KInt i) d with Some o => o | None => VDict [] end) in *.
    destruct (IH sub F') as (arr & E & A & B).
    { intros N. unfold sub. destruct (dget (KInt i) d) as [o|] eqn:E; [|eexists; reflexivity].
      apply (F [KInt i]); [apply prefix_cons, prefix_nil| |cbn [path_get]; now rewrite E].
      destruct idcs; [congruence|discriminate]. }
    rewrite E. cbn [bind]. eexists. split; [reflexivity|]. split.
    + intros q. cbn [app]. rewrite path_get_dset_same. apply A.
    + intros q N. destruct q as [|k q]; [left; split; [apply prefix_nil|cbn; eauto]|].
      destruct (key_dec k (KInt i)) as [->|Nk].
      * rewrite path_get_dset_same. destruct (B q) as [[P [d' Hd]]|S].
        { intros X. apply N. now apply prefix_cons. }
        { left. split; [now apply prefix_cons|eauto]. }
        { destruct (prefix_dec q (map KInt idcs)) as [P|Np].
          - left. split; [now apply prefix_cons|]. rewrite S. unfold sub.
            assert (q <> map KInt idcs) as Nq by (intros ->; apply N, prefix_cons, prefix_refl).
            destruct (dget (KInt i) d) as [o|] eqn:Eo.
            + destruct (path_get q o) as [w|] eqn:Eq.
              * destruct (F (KInt i :: q) w) as [d' ->]; [now apply prefix_cons|congruence| |eauto].
                cbn [path_get]. now rewrite Eo.
              * exfalso. assert (S' : path_get q arr = None) by (rewrite S; unfold sub; exact Eq).
                (* a prefix of a stored path is present *)
                assert (path_get (map KInt idcs) arr = Some v) as G by (specialize (A []); rewrite app_nil_r in A; exact A).
                destruct (path_prefix q (map KInt idcs) arr v G P Nq) as [d' X]. congruence.
            + destruct q; [cbn; eauto|]. exfalso.
              assert (path_get (map KInt idcs) arr = Some v) as G by (specialize (A []); rewrite app_nil_r in A; exact A).
              destruct (path_prefix _ _ arr v G P Nq) as [d' X]. rewrite S in X. unfold sub in X. discriminate.
          - right. rewrite S. unfold sub. cbn [path_get]. destruct (dget (KInt i) d); [reflexivity|].
            destruct q; [destruct Np; apply prefix_nil|reflexivity]. }
      * right. now apply path_get_dset_other.
Qed.

(** [d2] is [d] with [v] stored under [ks]; missing dictionaries are created *)
Definition stored (ks : list key) (v : val) (d d2 : val) : Prop :=
  (forall q, path_get (ks ++ q) d2 = path_get q v) /\
  (forall q, ~ is_prefix ks q ->
     (is_prefix q ks /\ exists e, path_get q d2 = Some (VDict e)) \/ same_shape (path_get q d2) (path_get q d)).

Lemma dset_stored k v d : stored [k] v (VDict d) (VDict (dset k v d)).
Proof.
  split.
  - intros q. apply path_get_dset_same.
  - intros q N. destruct q as [|k' q]; [left; split; [apply prefix_nil|cbn; eauto]|]. right.
    destruct (key_dec k' k) as [->|Nk]; [destruct N; apply prefix_cons, prefix_nil|].
    rewrite path_get_dset_other by exact Nk. apply shape_refl.
Qed.

Lemma set_var_stored x ix idcs v s : mapM (get_indexvalue (ps_loops s)) ix = Ok idcs ->
  free (KStr x :: map KInt idcs) (VDict (ps_dic s)) ->
  exists d2, set_var (x, ix) v s = (Ok tt, set_dic d2 s) /\
    stored (KStr x :: map KInt idcs) v (VDict (ps_dic s)) (VDict d2).
Proof.
  intros E F. unfold set_var. destruct ix as [|i ix].
  - cbn in E. injection E as <-. eexists. split; [reflexivity|]. apply dset_stored.
  - rewrite E. cbn [bind]. set (cur := match dget (KStr x) (ps_dic s) with Some o => o | None => VDict [] end).
    assert (idcs <> []) as Ni.
    { intros ->. cbn [mapM] in E. destruct (get_indexvalue _ _); [|discriminate]. cbn [bind] in E.
      destruct (mapM _ ix); discriminate. }
    pose proof (free_cons _ _ _ F) as F'. fold cur in F'.
    destruct (set_indexed_get idcs v cur F') as (arr & Ea & A & B).
    { intros _. unfold cur. destruct (dget (KStr x) (ps_dic s)) as [o|] eqn:Eo; [|eexists; reflexivity].
      apply (F [KStr x]); [apply prefix_cons, prefix_nil| |cbn [path_get]; now rewrite Eo].
      destruct idcs; [congruence|discriminate]. }
    rewrite Ea. eexists. split; [reflexivity|]. split.
    + intros q. cbn [app]. rewrite path_get_dset_same. apply A.
    + intros q N. destruct q as [|k q]; [left; split; [apply prefix_nil|cbn; eauto]|].
      destruct (key_dec k (KStr x)) as [->|Nk].
      * rewrite path_get_dset_same. destruct (B q) as [[P H]|H].
        { intros X. apply N. now apply prefix_cons. }
        { left. split; [now apply prefix_cons|exact H]. }
        { destruct q as [|k q].
          - left. split; [apply prefix_cons, prefix_nil|]. destruct idcs; [congruence|].
            cbn [set_indexed] in Ea. destruct cur; try discriminate. destruct (set_indexed _ _ _); [|discriminate].
            cbn [bind] in Ea. injection Ea as <-. cbn. eauto.
          - right. rewrite H. unfold cur. cbn [path_get]. destruct (dget (KStr x) (ps_dic s)); apply shape_refl. }
      * right. rewrite path_get_dset_other by exact Nk. apply shape_refl.
Qed.

Lemma root_stored up ks v d d2 : opened up -> stored ks v (VDict d) (VDict d2) ->
  stored (pre up ++ ks) v (VDict (root up d)) (VDict (root up d2)).
Proof.
  intros O [A B]. split.
  - intros q. rewrite <- app_assoc, root_in by exact O. apply A.
  - intros q N. destruct (prefix_dec (pre up) q) as [[r ->]|Np].
    + rewrite !root_in by exact O. destruct (B r) as [[P H]|H].
      * intros X. apply N. now apply prefix_app_l.
      * left. split; [now apply prefix_app_l|exact H].
      * now right.
    + right. now apply root_out.
Qed.

(** ** Reading from arrays *)

Lemma array_get_path idcs : forall cur v, path_get (map KInt idcs) cur = Some v -> array_get cur idcs = Ok v.
Proof.
  induction idcs as [|i idcs IH]; intros cur v H; [now injection H as ->|].
  cbn [map path_get] in H. destruct cur; try discriminate. cbn [array_get].
  destruct (dget (KInt i) d); [now apply IH|discriminate].
Qed.
Lemma array_get_missing idcs : forall cur, free (map KInt idcs) cur -> path_get (map KInt idcs) cur = None ->
  array_get cur idcs = Err UnavailableIndexError.
Proof.
  induction idcs as [|i idcs IH]; intros cur F H; [discriminate|].
  destruct (F [] cur) as [d ->]; [apply prefix_nil|discriminate|reflexivity|].
  cbn [map path_get array_get] in *. destruct (dget (KInt i) d) as [o|] eqn:E; [|reflexivity].
  apply IH; [|exact H]. pose proof (free_cons _ _ _ F) as F'. now rewrite E in F'.
Qed.
Lemma array_get_inv idcs : forall cur v, array_get cur idcs = Ok v ->
  path_get (map KInt idcs) cur = Some v \/
  exists q i r l w, idcs = q ++ i :: r /\ path_get (map KInt q) cur = Some (VList l) /\ In w l /\ array_get w r = Ok v.
Proof.
  induction idcs as [|i idcs IH]; intros cur v H; [left; now injection H as ->|].
  cbn [array_get] in H. destruct cur; try discriminate.
  - destruct (existsb _ l); [|discriminate]. right. exists [], i, idcs, l.
    unfold list_index in H. destruct (_ || _); [discriminate|].
    destruct (nth_error l _) eqn:E; [|discriminate]. cbn [bind] in H. exists v0.
    split; [reflexivity|]. split; [reflexivity|]. split; [eapply nth_error_In; eassumption|exact H].
  - cbn [map path_get]. destruct (dget (KInt i) d) as [o|] eqn:E; [|discriminate].
    destruct (IH _ _ H) as [P|(q & j & r & l & w & -> & P & X)]; [now left|right].
    exists (i :: q), j, r, l, w. cbn [map path_get app]. rewrite E. auto.
Qed.
