(** Dictionaries, paths and sections (C29). *)
From Coq Require Import Ascii String ZArith QArith Bool Lia List.
From Verif Require Import PyBase PyFloat ModelFortran ModelRecords ModelTape ModelNum ModelRecipe ModelInterp.
From Verif Require Import SpecInterp ProofPyBase ProofInterp ProofInterpFrame ProofInterpCtl.
Import ListNotations.
Open Scope Z_scope.

(** ** Dictionaries *)

Lemma key_eqb_eq a b : key_eqb a b = true <-> a = b.
Proof.
  destruct a as [x|x], b as [y|y]; cbn [key_eqb]; try (split; discriminate).
  - rewrite Z.eqb_eq. split; congruence.
  - rewrite str_eqb_eq. split; congruence.
Qed.
Lemma key_eqb_refl a : key_eqb a a = true.
Proof. apply key_eqb_eq. reflexivity. Qed.
Lemma key_eqb_neq a b : a <> b -> key_eqb a b = false.
Proof. intros N. destruct (key_eqb a b) eqn:E; [|reflexivity]. apply key_eqb_eq in E. contradiction. Qed.
Lemma key_dec (a b : key) : {a = b} + {a <> b}.
Proof.
  destruct (key_eqb a b) eqn:E; [left; apply key_eqb_eq; exact E | right].
  intros ->. rewrite key_eqb_refl in E. discriminate.
Qed.

Lemma dget_dset_same k v d : dget k (dset k v d) = Some v.
Proof.
  induction d as [|[k' v'] d IH]; cbn [dset dget]; [rewrite key_eqb_refl; reflexivity|].
  destruct (key_eqb k k') eqn:E; cbn [dget]; rewrite E; [reflexivity | exact IH].
Qed.
Lemma dget_dset_other k k' v d : k <> k' -> dget k (dset k' v d) = dget k d.
Proof.
  intros N. induction d as [|[k1 v1] d IH]; cbn [dset dget]; [rewrite key_eqb_neq by exact N; reflexivity|].
  destruct (key_eqb k' k1) eqn:E; cbn [dget].
  - apply key_eqb_eq in E. subst k1. rewrite key_eqb_neq by exact N. reflexivity.
  - rewrite IH. reflexivity.
Qed.
Lemma dget_ddel_other k k' d : k <> k' -> dget k (ddel k' d) = dget k d.
Proof.
  intros N. induction d as [|[k1 v1] d IH]; cbn [ddel dget]; [reflexivity|].
  destruct (key_eqb k' k1) eqn:E; cbn [dget].
  - apply key_eqb_eq in E. subst k1. rewrite key_eqb_neq by exact N. reflexivity.
  - rewrite IH. reflexivity.
Qed.

Lemma del_names_other k l : forall d d', del_names l d = Ok d' -> (forall x, In x l -> k <> KStr x) ->
  dget k d' = dget k d.
Proof.
  induction l as [|x l IH]; intros d d' H N; cbn [del_names] in H; [injection H as <-; reflexivity|].
  destruct (dget (KStr x) d); [|discriminate H]. apply IH in H; [|intros y Y; apply N; right; exact Y].
  rewrite H. apply dget_ddel_other. apply N. left. reflexivity.
Qed.

(** ** Paths *)

Lemma prefix_nil {A} (l : list A) : is_prefix [] l.
Proof. exists l. reflexivity. Qed.
Lemma prefix_cons {A} (a : A) p q : is_prefix p q -> is_prefix (a :: p) (a :: q).
Proof. intros (c & ->). exists c. reflexivity. Qed.

Lemma unrelated_cons k p q : unrelated (k :: p) (k :: q) -> unrelated p q.
Proof. intros [A B]. split; intros C; [apply A | apply B]; apply prefix_cons; exact C. Qed.

(** reading below a key after changing the entry under another or the same key *)
Lemma path_get_dset_other k k' r v d : k <> k' -> path_get (k :: r) (VDict (dset k' v d)) = path_get (k :: r) (VDict d).
Proof. intros N. cbn [path_get]. rewrite dget_dset_other by exact N. reflexivity. Qed.
Lemma path_get_dset_same k r v d : path_get (k :: r) (VDict (dset k v d)) = path_get r v.
Proof. cbn [path_get]. rewrite dget_dset_same. reflexivity. Qed.

Lemma path_get_empty q : q <> [] -> path_get q (VDict []) = None.
Proof. destruct q; [congruence|]. reflexivity. Qed.

Lemma open_path_ok create name ks : forall cur inner cur', open_path create name ks cur = Ok (inner, cur') ->
  path_get ks cur' = Some (VDict inner) /\
  (forall q, unrelated ks q -> path_get q cur' = path_get q cur) /\
  match path_get ks cur with Some v => v = VDict inner | None => inner = [] /\ create = true end /\
  (create = false -> forall q, path_get q cur' = path_get q cur).
Proof.
  induction ks as [|k ks IH]; intros cur inner cur' H; cbn [open_path] in H.
  - destruct cur; try discriminate H. injection H as <- <-. cbn [path_get].
    split; [reflexivity|]. split; [reflexivity|]. split; reflexivity.
  - destruct cur as [| | |d| | | |]; try discriminate H. destruct (dget k d) as [o|] eqn:G.
    + apply bind_ok in H. destruct H as ([i o'] & H1 & H). injection H as <- <-.
      apply IH in H1. destruct H1 as (A & B & C & D). split; [rewrite path_get_dset_same; exact A|].
      split; [|split].
      * intros q U. destruct q as [|k' q]; [destruct (proj2 U); apply prefix_nil|].
        destruct (key_dec k' k) as [->|N].
        -- rewrite path_get_dset_same. cbn [path_get]. rewrite G. apply B. exact (unrelated_cons _ _ _ U).
        -- apply path_get_dset_other. exact N.
      * cbn [path_get]. rewrite G. exact C.
      * intros Cr q. destruct q as [|k' q].
        -- cbn [path_get]. f_equal. f_equal. specialize (D Cr []). cbn [path_get] in D. injection D as ->.
           clear -G. induction d as [|[k1 v1] d IHd]; cbn [dget dset] in *; [discriminate|].
           destruct (key_eqb k k1); [injection G as ->; reflexivity|]. rewrite IHd by exact G. reflexivity.
        -- destruct (key_dec k' k) as [->|N].
           ++ rewrite path_get_dset_same. cbn [path_get]. rewrite G. apply D. exact Cr.
           ++ apply path_get_dset_other. exact N.
    + destruct create; [|discriminate H].
      apply bind_ok in H. destruct H as ([i o'] & H1 & H). injection H as <- <-.
      apply IH in H1. destruct H1 as (A & B & C & D). split; [rewrite path_get_dset_same; exact A|].
      split; [|split].
      * intros q U. destruct q as [|k' q]; [destruct (proj2 U); apply prefix_nil|].
        destruct (key_dec k' k) as [->|N].
        -- rewrite path_get_dset_same. cbn [path_get]. rewrite G.
           rewrite B by exact (unrelated_cons _ _ _ U). apply path_get_empty.
           intros ->. destruct (proj2 U). apply prefix_cons, prefix_nil.
        -- apply path_get_dset_other. exact N.
      * cbn [path_get]. rewrite G. destruct (path_get ks (VDict [])) eqn:P; [|exact C].
        destruct ks; [|discriminate P]. injection P as <-. injection C as <-. auto.
      * discriminate.
Qed.

Lemma put_path_ok ks v : forall old w, path_get ks old = Some w ->
  path_get ks (put_path ks v old) = Some v /\
  (forall q, unrelated ks q -> path_get q (put_path ks v old) = path_get q old).
Proof.
  induction ks as [|k ks IH]; intros old w H; cbn [put_path].
  - split; [reflexivity|]. intros q [A _]. destruct A. apply prefix_nil.
  - destruct old as [| | |d| | | |]; try discriminate H. cbn [path_get] in H.
    destruct (dget k d) as [o|] eqn:G; [|discriminate H].
    destruct (IH _ _ H) as [A B]. split; [rewrite path_get_dset_same; exact A|].
    intros q U. destruct q as [|k' q]; [destruct (proj2 U); apply prefix_nil|].
    destruct (key_dec k' k) as [->|N].
    + rewrite path_get_dset_same. cbn [path_get]. rewrite G. apply B. exact (unrelated_cons _ _ _ U).
    + apply path_get_dset_other. exact N.
Qed.

Lemma outer_ok f d w : path_get (frame_keys f) (VDict (fr_dic f)) = Some w ->
  path_get (frame_keys f) (VDict (outer f d)) = Some (VDict d) /\
  (forall q, unrelated (frame_keys f) q -> path_get q (VDict (outer f d)) = path_get q (VDict (fr_dic f))).
Proof.
  intros H. destruct (put_path_ok (frame_keys f) (VDict d) (VDict (fr_dic f)) w H) as [A B].
  unfold outer. destruct (put_path (frame_keys f) (VDict d) (VDict (fr_dic f))) as [| | |d'| | | |] eqn:E;
    try discriminate A. split; [exact A | exact B].
Qed.

(** other names are seen unchanged from inside *)
Lemma outer_other f d k : k <> KStr (fr_name f) -> dget k (outer f d) = dget k (fr_dic f).
Proof.
  intros N. unfold outer, frame_keys. cbn [put_path]. destruct (dget (KStr (fr_name f)) (fr_dic f)); [|reflexivity].
  apply dget_dset_other. exact N.
Qed.

(** ** Sections *)

Lemma init_working_other k d : ~ working_key k -> dget k (init_working d) = dget k d.
Proof.
  intros N. unfold init_working. unfold working_key in N.
  rewrite !dget_dset_other; [reflexivity | |]; intros ->; tauto.
Qed.

Theorem section_scope en x ix tl body s s' : ps_look s = None ->
  exec en (ISection (x, ix) tl body) s = (Ok tt, s') ->
  exists idcs inner s1 s2,
    mapM (get_indexvalue (ps_loops s)) ix = Ok idcs /\
    (forall k, ~ working_key k -> dget k (ps_dic s1) =
       match path_get (KStr x :: map KInt idcs) (VDict (ps_dic s)) with
       | Some (VDict d) => dget k d | _ => None end) /\
    exec_block en body s1 = (Ok tt, s2) /\
    path_get (KStr x :: map KInt idcs) (VDict (ps_dic s')) = Some (VDict inner) /\
    (forall k, ~ working_key k -> ~ abbreviation (ps_dic s2) k -> dget k inner = dget k (ps_dic s2)) /\
    (forall q, unrelated (KStr x :: map KInt idcs) q ->
       path_get q (VDict (ps_dic s')) = path_get q (VDict (ps_dic s))) /\
    ps_loops s' = ps_loops s /\ ps_up s' = ps_up s.
Proof.
  intros L H. pose proof (proj1 (exec_frame en) _ _ _ _ H) as FK.
  rewrite exec_section_eq, proceed_none in H by exact L.
  destruct (negb _); [discriminate H|].
  apply mbind_ok in H. destruct H as ([] & s0 & H0 & H).
  apply mbind_ok in H. destruct H as ([] & s1 & H1 & H).
  apply mbind_ok in H. destruct H as ([] & s2 & H2 & H).
  apply mbind_ok in H. destruct H as ([] & s3 & H3 & H).
  unfold open_section in H0.
  destruct (mapM (get_indexvalue (ps_loops s)) ix) as [idcs|e]; [|discriminate H0]. cbn [bind] in H0.
  destruct (open_path (negb (e_write en)) x (KStr x :: map KInt idcs) (VDict (ps_dic s))) as [[inner0 cur]|e] eqn:OP;
    [|discriminate H0].
  cbn [bind] in H0. destruct cur as [| | |d| | | |]; try discriminate H0. injection H0 as <-.
  apply open_path_ok in OP. destruct OP as (P1 & P2 & P3 & _).
  injection H1 as <-. pose proof (proj2 (exec_frame en) _ _ _ _ H2) as FK2.
  set (f := {| fr_dic := d; fr_name := x; fr_idx := idcs |}) in *.
  assert (U2 : ps_up s2 = f :: ps_up s) by (rewrite (fk_up _ _ _ FK2); reflexivity).
  unfold remove_working in H3. destruct (dget (KStr $"__abbrevs") (ps_dic s2)) as [v|] eqn:AB; [|discriminate H3].
  destruct v as [| | | | | | |l]; try discriminate H3. destruct (del_names l (ps_dic s2)) as [d3|] eqn:DN; [|discriminate H3].
  injection H3 as <-. unfold close_section in H. cbn [set_dic ps_up ps_dic] in H. rewrite U2 in H. injection H as <-.
  cbn [set_up ps_dic].
  set (inner := ddel (KStr $"__up") (ddel (KStr $"__startidcs") (ddel (KStr $"__abbrevs") d3))).
  change (KStr x :: map KInt idcs) with (frame_keys f) in *.
  destruct (outer_ok f inner _ P1) as [O1 O2].
  exists idcs, inner, (set_dic (init_working (dset (KStr $"__up") VUp inner0)) (set_up (f :: ps_up s) (dset (KStr $"__up") VUp inner0) s)), s2.
  split; [reflexivity|]. split; [|split; [exact H2|]]; [|split; [exact O1|]]; [|split; [|split]].
  - intros k N. cbn [set_dic ps_dic]. rewrite init_working_other by exact N.
    rewrite dget_dset_other by (intros ->; apply N; left; reflexivity).
    change (KStr x :: map KInt idcs) with (frame_keys f). destruct (path_get (frame_keys f) (VDict (ps_dic s))) as [v|].
    + subst v. reflexivity.
    + destruct P3 as [-> _]. reflexivity.
  - intros k N A. unfold inner. unfold working_key in N.
    rewrite !dget_ddel_other; try (intros ->; tauto).
    apply (del_names_other k l _ _ DN). intros y Y ->. apply A. exists l, y. auto.
  - intros q U. rewrite O2 by exact U. cbn [fr_dic f]. apply P2. exact U.
  - split; [exact (fk_loops _ _ _ FK) | reflexivity].
Qed.

(** ** Names *)

Theorem lookup_outwards sc x v : lget x (sc_loops sc) = None ->
  (get_raw sc true x [] = Ok v <-> first_with x (views (sc_dic sc) (sc_up sc)) v).
Proof.
  intros L. unfold get_raw. rewrite L.
  assert (E : forall up d, (match find_up x d up with None => Err (VariableNotFoundError x) | Some w => Ok w end = Ok v
    <-> first_with x (views d up) v)).
  { induction up as [|f up IH]; intros d; cbn [find_up views].
    - destruct (dget (KStr x) d) as [w|] eqn:G.
      + split; [intros H; injection H as ->; apply fw_here; exact G |].
        intros H. inversion H; subst; congruence.
      + split; [discriminate|]. intros H. inversion H as [d0 r0 v0 Q|d0 r0 v0 Q Q']; subst; [congruence|]. inversion Q'.
    - destruct (dget (KStr x) d) as [w|] eqn:G.
      + split; [intros H; injection H as ->; apply fw_here; exact G |].
        intros H. inversion H; subst; congruence.
      + rewrite IH. split; [intros H; apply fw_next; assumption |].
        intros H. inversion H; subst; [congruence | assumption]. }
  exact (E (sc_up sc) (sc_dic sc)).
Qed.

Theorem lookup_local sc x v : lget x (sc_loops sc) = None ->
  (get_raw sc false x [] = Ok v <-> dget (KStr x) (sc_dic sc) = Some v).
Proof.
  intros L. unfold get_raw. rewrite L. destruct (dget (KStr x) (sc_dic sc)) as [w|]; split; congruence.
Qed.
