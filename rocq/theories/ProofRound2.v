(** C31: the states of the writer and of the reader, and variables in them. *)
From Coq Require Import Ascii String ZArith Bool Lia List.
From Coq Require Import Floats.SpecFloat.
From Verif Require Import PyBase PyFloat ModelFortran ModelRecords ModelNum ModelRecipe ModelInterp.
From Verif Require Import SpecFields SpecInterp SpecRound ProofPyBase ProofInterp ProofInterpSec ProofInterpMap.
From Verif Require Import ProofRound1.
Import ListNotations.
Open Scope Z_scope.

(** ** Small facts *)

Lemma kind_eqb_eq a b : kind_eqb a b = true -> a = b.
Proof. destruct a, b; try discriminate; reflexivity. Qed.
Lemma has_kind_eq G s x k : has_kind G s x k = true -> G s x = Some k.
Proof. unfold has_kind. destruct (G s x); [|discriminate]. intros H. apply kind_eqb_eq in H. now subst. Qed.
Lemma internalb_iff x : internalb x = true <-> internal x.
Proof.
  unfold internalb, internal. rewrite !orb_true_iff, !str_eqb_eq. tauto.
Qed.
Lemma internal_key x : internal x <-> working_key (KStr x).
Proof.
  unfold internal, working_key. split.
  - intros [-> | [-> | ->]]; auto.
  - intros [E|[E|E]]; injection E as ->; auto.
Qed.
Lemma no_name_iff G s x : no_name G s x = true -> ~ internal x /\ G s x = None.
Proof.
  unfold no_name. rewrite andb_true_iff, negb_true_iff. intros [A B]. split.
  - intros X. apply internalb_iff in X. congruence.
  - destruct (G s x); [discriminate|reflexivity].
Qed.
Lemma idx_eqb_eq a b : idx_eqb a b = true -> a = b.
Proof.
  destruct a as [x|[x| |]], b as [y|[y| |]]; try discriminate; cbn [idx_eqb]; intros H.
  - apply str_eqb_eq in H. now subst.
  - apply Z.eqb_eq in H. now subst.
Qed.
Lemma list_eqb_eq {A} (f : A -> A -> bool) (E : forall a b, f a b = true -> a = b) : forall l m, list_eqb f l m = true -> l = m.
Proof.
  induction l as [|a l IH]; intros [|b m] H; try discriminate; [reflexivity|].
  cbn [list_eqb] in H. apply andb_true_iff in H as [H1 H2]. now rewrite (E _ _ H1), (IH _ H2).
Qed.
Lemma var_eqb_eq a b : var_eqb a b = true -> a = b.
Proof.
  destruct a as [x ix], b as [y iy]. unfold var_eqb. cbn [fst snd]. rewrite andb_true_iff. intros [A B].
  apply str_eqb_eq in A. apply (list_eqb_eq _ idx_eqb_eq) in B. now subst.
Qed.
Lemma mem_In t l : mem t l = true -> In t l.
Proof.
  unfold mem. rewrite existsb_exists. intros (u & I & E). apply var_eqb_eq in E. now subst.
Qed.
Lemma meet_In t a b : In t (meet a b) -> In t a /\ In t b.
Proof. unfold meet. rewrite filter_In. intros [A B]. split; [exact A|now apply mem_In]. Qed.

Lemma kind_eqb_refl k : kind_eqb k k = true.
Proof. now destruct k. Qed.
Lemma admits_refl k : admits k k = true.
Proof. unfold admits. now rewrite kind_eqb_refl. Qed.
Lemma field_var_iff G s L k u : field_var G s L k u = true ->
  is_loop L (fst u) = false /\ forallb (idx_ok L) (snd u) = true /\
  exists K, G s (fst u) = Some K /\ admits K k = true /\ (K = k \/ snd u = [] \/ K = IntN).
Proof.
  unfold field_var. rewrite !andb_true_iff, negb_true_iff. intros [[A B] C]. split; [exact A|]. split; [exact B|].
  unfold may_hold in C. destruct (G s (fst u)) as [K|]; [|discriminate]. exists K. split; [reflexivity|].
  apply orb_prop in C as [C|C].
  - apply kind_eqb_eq in C as ->. split; [apply admits_refl|now left].
  - apply andb_prop in C as [C1 C2]. split; [exact C1|right]. destruct (snd u); [now left|right; now apply kind_eqb_eq].
Qed.

Lemma user_app p q : user_path (p ++ q) <-> user_path p /\ user_path q.
Proof. apply Forall_app. Qed.
Lemma user_ints l : user_path (map KInt l).
Proof. apply Forall_forall. intros k H. apply in_map_iff in H as (z & <- & _). intros [E|[E|E]]; discriminate. Qed.
Lemma user_prefix p q : is_prefix p q -> user_path q -> user_path p.
Proof. intros [c ->] H. apply user_app in H. tauto. Qed.
Lemma user_str x l : ~ internal x -> user_path (KStr x :: map KInt l).
Proof. intros N. constructor; [now rewrite <- internal_key|apply user_ints]. Qed.

Lemma printed_leaf wo ro k v v' : printed wo ro k v v' -> ~ is_dict v /\ ~ is_dict v'.
Proof. intros H; inversion H; subst; split; intros [d E]; discriminate. Qed.
Lemma printable_leaf wo ro k v : printable wo ro k v -> ~ is_dict v.
Proof. intros H; inversion H; subst; intros [d E]; discriminate. Qed.
Lemma reads_fun wo ro n a b : reads_as wo ro n a -> reads_as wo ro n b -> a = b.
Proof.
  intros [(s & E1 & _ & E2) _] [(s' & E1' & _ & E2') _]. rewrite E1 in E1'. injection E1' as <-. rewrite E2 in E2'. now injection E2'.
Qed.
Lemma printed_fun wo ro k v a b : k <> TextV -> printed wo ro k v a -> printed wo ro k v b -> a = b.
Proof.
  intros N A B. destruct A as [K z A|K n w A R|K l A|K l m A R|K t n A]; inversion B; subst; try reflexivity;
    try (exfalso; destruct K; try discriminate; congruence).
  - f_equal. eapply reads_fun; eassumption.
  - f_equal. f_equal. match goal with E : map VNum ?l0 = map VNum l |- _ => assert (l0 = l) as -> end.
    { match goal with E : map VNum l0 = map VNum l |- _ => clear -E; revert l E end.
      induction l0 as [|a l0 IH]; intros [|b l] E; try discriminate; [reflexivity|].
      injection E as -> E. f_equal. apply (IH _ E). }
    match goal with H1 : Forall2 _ l m0 |- _ => clear -R H1; revert m0 H1 end.
    induction R as [|x y l m R F IH]; intros m0 H1; inversion H1; subst; [reflexivity|].
    f_equal; [eapply reads_fun; eassumption|now apply IH].
Qed.

(** a value with the shape of kind [k] *)
Definition shaped (k : kind) (v : val) : Prop :=
  match k with FltV => exists n, v = VNum n | IntL | FltL | FltU => exists l, v = VList l | _ => True end.
Lemma printable_at wo ro K k v : admits K k = true -> printable wo ro K v -> shaped k v -> printable wo ro k v.
Proof.
  intros A P F. inversion P; subst; destruct K, k; try discriminate; cbn [shaped] in F;
    try (destruct F; discriminate); solve [econstructor; [reflexivity|eassumption]|constructor; [reflexivity|assumption|discriminate]|constructor; [reflexivity|assumption|assumption]|now constructor].
Qed.
Lemma printed_at wo ro K k v v' : admits K k = true -> printed wo ro K v v' -> shaped k v -> printed wo ro k v v'.
Proof.
  intros A P F. inversion P; subst; destruct K, k; try discriminate; cbn [shaped] in F;
    try (destruct F; discriminate); solve [econstructor; [reflexivity|eassumption]|now constructor].
Qed.
Lemma printed_up wo ro K k v v' : admits K k = true -> printed wo ro k v v' -> printed wo ro K v v'.
Proof.
  intros A P. inversion P; subst; destruct K, k; try discriminate; solve [econstructor; [reflexivity|eassumption]|now constructor].
Qed.

Lemma printed_ofint wo ro K v v' : admits K IntV = true -> printed wo ro K v v' -> exists i, v = vint i /\ v' = vint i.
Proof. intros A P. inversion P; subst; try (destruct K; discriminate). eauto. Qed.
Lemma printable_ofint wo ro v : printable wo ro IntV v -> exists i, v = vint i /\ Z.abs i <= 2 ^ 53.
Proof. intros P. inversion P; subst; try discriminate. eauto. Qed.

(** ** States *)

Definition look (st : pstate) (p : list key) : option val := path_get p (VDict (root (ps_up st) (ps_dic st))).

Section Round.
  Variable wo : wopts.
  Variable ro : ropts.
  Variable G : schema.
  Hypothesis GG : good_schema G.

  Fixpoint sec_frames (up : list frame) : Prop :=
    match up with
    | [] => True
    | f :: fs => G (map fr_name fs) (fr_name f) = Some SecV /\ sec_frames fs
    end.

  Lemma schema_user s x k : G s x = Some k -> ~ internal x.
  Proof. intros E X. destruct GG as [N _]. rewrite (N s x X) in E. discriminate. Qed.

  Lemma kind_ints s k l p : s <> [] -> kind_at G s k (map KInt l ++ p) = kind_at G s k p.
  Proof. intros N. induction l as [|i l IH]; [reflexivity|]. cbn [map app kind_at]. destruct s; [congruence|exact IH]. Qed.
  Lemma kind_pre up : forall p, sec_frames up ->
    kind_at G [] SecV (pre up ++ p) = kind_at G (map fr_name up) SecV p.
  Proof.
    induction up as [|f fs IH]; intros p S; [reflexivity|]. destruct S as [E S]. cbn [pre map].
    rewrite <- app_assoc, IH by exact S. unfold frame_keys. cbn [app kind_at]. rewrite E. apply kind_ints. discriminate.
  Qed.
  Lemma kind_var up x l k : sec_frames up -> G (map fr_name up) x = Some k ->
    kind_at G [] SecV (pre up ++ KStr x :: map KInt l) = Some k.
  Proof.
    intros S E. rewrite kind_pre by exact S. cbn [kind_at]. rewrite E.
    rewrite <- (app_nil_r (map KInt l)), kind_ints by discriminate. reflexivity.
  Qed.
  Lemma user_pre up : sec_frames up -> user_path (pre up).
  Proof.
    induction up as [|f fs IH]; intros S; [constructor|]. destruct S as [E S]. cbn [pre].
    apply user_app. split; [now apply IH|]. apply user_str. eapply schema_user; eassumption.
  Qed.
  Lemma user_var up x l k : sec_frames up -> G (map fr_name up) x = Some k -> user_path (pre up ++ KStr x :: map KInt l).
  Proof. intros S E. apply user_app. split; [now apply user_pre|]. apply user_str. eapply schema_user; eassumption. Qed.

  Record shape_ok (s L : list str) (st : pstate) : Prop := {
    so_look : ps_look st = None;
    so_open : opened (ps_up st);
    so_names : s = map fr_name (ps_up st);
    so_sec : sec_frames (ps_up st);
    so_loops : forall x, is_loop L x = true <-> exists i, lget x (ps_loops st) = Some i
  }.

  (** a writer with the entries of [D] *)
  Definition wst (D : dict) (s L : list str) (st : pstate) : Prop :=
    shape_ok s L st /\ forall p, user_path p -> same_shape (look st p) (path_get p (VDict D)).
  (** a reader that has read part of [D] *)
  Definition rst (D : dict) (s L : list str) (st : pstate) : Prop :=
    shape_ok s L st /\ printed_part wo ro G D (root (ps_up st) (ps_dic st)) /\
    o_all (ps_opts st) = false /\ o_fuzzy (ps_opts st) = false.
  (** in the same section and the same iteration of the loops *)
  Definition aligned (a b : pstate) : Prop :=
    ps_loops a = ps_loops b /\ map frame_keys (ps_up a) = map frame_keys (ps_up b).

  Lemma pre_keys up up' : map frame_keys up = map frame_keys up' -> pre up = pre up'.
  Proof.
    revert up'; induction up as [|f fs IH]; intros [|f' fs'] E; try discriminate; [reflexivity|].
    injection E as E0 E1 E2. cbn [pre]. rewrite (IH _ E2). unfold frame_keys. now rewrite E0, E1.
  Qed.
  Lemma aligned_pre a b : aligned a b -> pre (ps_up a) = pre (ps_up b).
  Proof. intros [_ E]. now apply pre_keys. Qed.

  Lemma loop_none s L st x : shape_ok s L st -> is_loop L x = false -> lget x (ps_loops st) = None.
  Proof.
    intros S E. destruct (lget x (ps_loops st)) eqn:H; [|reflexivity].
    assert (is_loop L x = true) by (apply (so_loops _ _ _ S); eauto). congruence.
  Qed.
  Lemma indices_ok s L st ix : shape_ok s L st -> forallb (idx_ok L) ix = true ->
    exists idcs, mapM (get_indexvalue (ps_loops st)) ix = Ok idcs.
  Proof.
    intros S. induction ix as [|q ix IH]; intros H; [exists []; reflexivity|].
    cbn [forallb] in H. apply andb_true_iff in H as [H1 H2]. destruct (IH H2) as [l E].
    cbn [mapM]. rewrite E. destruct q as [x|[z| |]]; try discriminate; cbn [idx_ok get_indexvalue] in *.
    - apply (so_loops _ _ _ S) in H1 as [i ->]. eexists. reflexivity.
    - eexists. reflexivity.
  Qed.

  (** the path of a variable *)
  Definition at_path (st : pstate) (x : str) (idcs : list Z) : list key := pre (ps_up st) ++ KStr x :: map KInt idcs.

  Lemma local_get st p : opened (ps_up st) -> path_get p (VDict (ps_dic st)) = look st (pre (ps_up st) ++ p).
  Proof. apply root_get. Qed.

  Section One.
    Variable D : dict.
    Hypothesis CD : conforms wo ro G D.

    Lemma no_entry s L st x : shape_ok s L st -> ~ internal x -> G s x = None ->
      path_get (pre (ps_up st) ++ [KStr x]) (VDict D) = None.
    Proof.
      intros S N E. destruct (path_get _ _) as [v|] eqn:H; [exfalso|reflexivity].
      destruct (CD _ _ ltac:(apply user_app; split; [apply user_pre, (so_sec _ _ _ S)|apply (user_str x [] N)]) H) as (k & K & _).
      rewrite kind_pre in K by apply (so_sec _ _ _ S). rewrite <- (so_names _ _ _ S) in K. cbn [kind_at] in K.
      rewrite E in K. discriminate.
    Qed.

    Lemma w_absent s L st x : wst D s L st -> ~ internal x -> G s x = None -> dget (KStr x) (ps_dic st) = None.
    Proof.
      intros [S W] N E. rewrite (root_dget (ps_up st)) by apply (so_open _ _ _ S). fold (look st (pre (ps_up st) ++ [KStr x])).
      eapply shape_none; [apply shape_sym, W|eapply no_entry; eassumption].
      apply user_app. split; [apply user_pre, (so_sec _ _ _ S)|apply (user_str x [] N)].
    Qed.
    Lemma r_absent s L st x : rst D s L st -> ~ internal x -> G s x = None -> dget (KStr x) (ps_dic st) = None.
    Proof.
      intros [S [P _]] N E. rewrite (root_dget (ps_up st)) by apply (so_open _ _ _ S).
      destruct (path_get _ _) as [v|] eqn:H; [exfalso|reflexivity].
      destruct (P _ _ ltac:(apply user_app; split; [apply user_pre, (so_sec _ _ _ S)|apply (user_str x [] N)]) H) as (w & K & _).
      erewrite no_entry in K; eauto. discriminate.
    Qed.

    Lemma get_loop s L st lu x ix i : shape_ok s L st -> lget x (ps_loops st) = Some i -> dget (KStr x) (ps_dic st) = None ->
      get_raw (scope_of st) lu x ix = Ok (vint i).
    Proof. intros _ E N. unfold get_raw. cbn [scope_of sc_loops sc_dic]. now rewrite E, N. Qed.

    (** a variable that has a value in [D] *)
    Lemma w_get s L st x ix idcs v : wst D s L st -> is_loop L x = false -> mapM (get_indexvalue (ps_loops st)) ix = Ok idcs ->
      user_path (at_path st x idcs) -> path_get (at_path st x idcs) (VDict D) = Some v -> ~ is_dict v ->
      get_raw (scope_of st) false x ix = Ok v.
    Proof.
      intros [S W] N E U H Nd. unfold get_raw. cbn [scope_of sc_loops sc_dic].
      rewrite (loop_none _ _ _ _ S N).
      assert (X : path_get (KStr x :: map KInt idcs) (VDict (ps_dic st)) = Some v).
      { rewrite local_get by apply (so_open _ _ _ S). eapply shape_leaf; [apply shape_sym, W; exact U|exact H|exact Nd]. }
      cbn [path_get] in X. destruct (dget (KStr x) (ps_dic st)) as [o|]; [|discriminate].
      destruct ix; [cbn in E; injection E as <-; now injection X as ->|].
      rewrite E. cbn [bind]. now apply array_get_path.
    Qed.

    Lemma w_get_inv s L st k x ix v : wst D s L st -> field_var G s L k (x, ix) = true ->
      get_raw (scope_of st) false x ix = Ok v -> ~ is_dict v ->
      shaped k v ->
      exists idcs, mapM (get_indexvalue (ps_loops st)) ix = Ok idcs /\
        path_get (at_path st x idcs) (VDict D) = Some v /\ printable wo ro k v.
    Proof.
      intros [S W] F H Nd T. apply field_var_iff in F as (NL & FI & KK & K & Ad & One). cbn [fst snd] in *.
      destruct (indices_ok _ _ _ _ S FI) as [idcs E]. exists idcs. split; [exact E|].
      unfold get_raw in H. cbn [scope_of sc_loops sc_dic] in H. rewrite (loop_none _ _ _ _ S NL) in H.
      destruct (dget (KStr x) (ps_dic st)) as [o|] eqn:O; [|discriminate].
      assert (H' : array_get o idcs = Ok v).
      { destruct ix; [cbn in E; injection E as <-; exact H|]. now rewrite E in H. }
      clear H. rewrite (so_names _ _ _ S) in K.
      assert (P : forall q w, path_get (map KInt q) o = Some w -> ~ is_dict w ->
                 path_get (at_path st x q) (VDict D) = Some w /\ printable wo ro KK w).
      { intros q w Hw Nw. assert (X : path_get (at_path st x q) (VDict D) = Some w).
        { eapply shape_leaf; [apply W|  |exact Nw].
          - eapply user_var; [apply (so_sec _ _ _ S)|exact K].
          - unfold at_path. rewrite <- local_get by apply (so_open _ _ _ S). cbn [path_get]. now rewrite O. }
        split; [exact X|]. destruct (CD (at_path st x q) w) as (k' & K' & [X1|X1]).
        - eapply user_var; [apply (so_sec _ _ _ S)|exact K].
        - exact X.
        - destruct (Nw (proj1 X1)).
        - unfold at_path in K'. erewrite kind_var in K' by (eauto; apply (so_sec _ _ _ S)). injection K' as ->. exact X1. }
      destruct (array_get_inv _ _ _ H') as [X|(q & i & r & l & w & -> & X & I & Y)].
      - destruct (P _ _ X Nd) as [X1 X2]. split; [exact X1|]. eapply printable_at; eauto.
      - destruct (P q (VList l) X) as [_ Pl]; [intros [d' Z]; discriminate|]. exfalso.
        assert (exists n, w = VNum n) as [n ->].
        { inversion Pl; subst; apply in_map_iff in I as (z & <- & _); eexists; reflexivity. }
        assert (v = VNum n) as -> by (destruct r; [now injection Y as ->|discriminate]).
        destruct One as [->|[->| ->]]; [|cbn in E; injection E as E; destruct q; discriminate|inversion Pl; subst; destruct k; discriminate].
        inversion Pl; subst; destruct k; try discriminate; destruct T; discriminate.
    Qed.

    (** what the reader finds for a variable that has the value [v] in [D] *)
    Lemma r_get s L st k x ix idcs v : rst D s L st -> is_loop L x = false -> G s x = Some k ->
      mapM (get_indexvalue (ps_loops st)) ix = Ok idcs ->
      path_get (at_path st x idcs) (VDict D) = Some v -> ~ is_dict v ->
      free (KStr x :: map KInt idcs) (VDict (ps_dic st)) /\
      ((exists v', get_raw (scope_of st) false x ix = Ok v' /\ look st (at_path st x idcs) = Some v' /\ printed wo ro k v v') \/
       (exists er, get_raw (scope_of st) false x ix = Err er /\ missing true er = true /\ look st (at_path st x idcs) = None)).
    Proof.
      intros [S [P _]] NL K E H Nd. rewrite (so_names _ _ _ S) in K.
      assert (F : free (KStr x :: map KInt idcs) (VDict (ps_dic st))).
      { intros q w Pq Nq Hq. rewrite local_get in Hq by apply (so_open _ _ _ S).
        destruct (P _ _ ltac:(eapply user_prefix; [apply prefix_app_l; exact Pq|eapply user_var; [apply (so_sec _ _ _ S)|exact K]]) Hq)
          as (u & Hu & [[_ X]|(k' & _ & X)]); [exact X|exfalso].
        destruct (path_prefix (pre (ps_up st) ++ q) (at_path st x idcs) (VDict D) v H) as [d X1].
        - unfold at_path. now apply prefix_app_l.
        - unfold at_path. intros X1. apply app_inv_head in X1. contradiction.
        - rewrite Hu in X1. injection X1 as ->. inversion X. }
      split; [exact F|].
      unfold get_raw. cbn [scope_of sc_loops sc_dic]. rewrite (loop_none _ _ _ _ S NL).
      unfold at_path. rewrite <- local_get by apply (so_open _ _ _ S). cbn [path_get].
      destruct (dget (KStr x) (ps_dic st)) as [o|] eqn:O.
      2: { right. eexists. repeat split; reflexivity. }
      assert (A : match ix with [] => Ok o | _ => do idcs0 <- mapM (get_indexvalue (ps_loops st)) ix; array_get o idcs0 end
                  = array_get o idcs).
      { destruct ix; [cbn in E; injection E as <-; reflexivity|]. now rewrite E. }
      assert (A' : match ix with [] => Ok o | _ :: _ => do idcs0 <- mapM (get_indexvalue (ps_loops st)) ix; array_get o idcs0 end
                  = array_get o idcs) by exact A.
      rewrite A'. destruct (path_get (map KInt idcs) o) as [v'|] eqn:X.
      - left. exists v'. split; [now apply array_get_path|]. split; [reflexivity|].
        destruct (P (at_path st x idcs) v') as (u & Hu & [[[d ->] _]|(k' & K' & Y)]).
        + eapply user_var; [apply (so_sec _ _ _ S)|exact K].
        + fold (look st (at_path st x idcs)). unfold at_path. rewrite <- local_get by apply (so_open _ _ _ S). cbn [path_get]. now rewrite O.
        + rewrite H in Hu. injection Hu as ->. destruct Nd. eexists; reflexivity.
        + rewrite H in Hu. injection Hu as <-. unfold at_path in K'. erewrite kind_var in K' by (eauto; apply (so_sec _ _ _ S)).
          injection K' as <-. exact Y.
      - right. eexists. split; [apply array_get_missing; [|exact X]|split; reflexivity].
        pose proof (free_cons _ _ _ F) as F'. now rewrite O in F'.
    Qed.

    (** everything read stays *)
    Definition grows (a b : pstate) : Prop :=
      forall p v, user_path p -> look a p = Some v -> ~ is_dict v -> exists v', look b p = Some v' /\ ~ is_dict v'.
    Lemma grows_refl a : grows a a. Proof. intros p v _ H N. eauto. Qed.
    Lemma grows_trans a b c : grows a b -> grows b c -> grows a c.
    Proof. intros A B p v U H N. destruct (A p v U H N) as (w & H' & N'). eauto. Qed.

    Lemma store_ok s L st x idcs k v v' d2 : rst D s L st -> G s x = Some k ->
      path_get (at_path st x idcs) (VDict D) = Some v -> printed wo ro k v v' ->
      stored (KStr x :: map KInt idcs) v' (VDict (ps_dic st)) (VDict d2) ->
      rst D s L (set_dic d2 st) /\ grows st (set_dic d2 st) /\ look (set_dic d2 st) (at_path st x idcs) = Some v'.
    Proof.
      intros [S [P Op]] K H Pr St. rewrite (so_names _ _ _ S) in K.
      destruct (printed_leaf _ _ _ _ _ Pr) as [Nv Nv'].
      apply (root_stored (ps_up st)) in St; [|apply (so_open _ _ _ S)]. fold (at_path st x idcs) in St. destruct St as [A B].
      assert (Own : look (set_dic d2 st) (at_path st x idcs) = Some v').
      { specialize (A []). rewrite app_nil_r in A. exact A. }
      split; [|split; [|exact Own]].
      - split; [destruct S; constructor; assumption|]. split; [|exact Op].
        intros q w U Hw. cbn [set_dic ps_up ps_dic] in Hw.
        destruct (prefix_dec (at_path st x idcs) q) as [[r ->]|Nq].
        + rewrite A in Hw. destruct r as [|key r]; [|rewrite path_get_leaf in Hw by exact Nv'; discriminate].
          injection Hw as <-. rewrite app_nil_r in *. exists v. split; [exact H|]. right. exists k. split; [|exact Pr].
          apply kind_var; [apply (so_sec _ _ _ S)|exact K].
        + destruct (B q Nq) as [[Pq [e He]]|Sh].
          * rewrite He in Hw. injection Hw as <-.
            destruct (path_prefix q _ _ _ H Pq) as [e' He']; [intros ->; apply Nq, prefix_refl|].
            exists (VDict e'). split; [exact He'|]. left. split; eexists; reflexivity.
          * destruct Sh as [Eq|(e & e' & E1 & E2)].
            { apply (P q w U). fold (look st q). unfold look. rewrite <- Eq. exact Hw. }
            { rewrite E1 in Hw. injection Hw as <-. destruct (P q _ U E2) as (u & Hu & [[X _]|(k' & _ & X)]).
              - exists u. split; [exact Hu|]. left. split; [exact X|eexists; reflexivity].
              - destruct (printed_leaf _ _ _ _ _ X) as [_ X']. destruct X'. eexists; reflexivity. }
      - intros q w U Hw Nw. destruct (prefix_dec (at_path st x idcs) q) as [[r ->]|Nq].
        + destruct r as [|key r]; [rewrite app_nil_r; eauto|]. exfalso.
          (* nothing was below a value *)
          destruct (P _ w U Hw) as (u & Hu & _). rewrite path_get_app, H, path_get_leaf in Hu by exact Nv. discriminate.
        + destruct (B q Nq) as [[Pq [e He]]|Sh].
          * exfalso. destruct (P q w U Hw) as (u & Hu & [[_ X]|(k' & _ & X)]); [now apply Nw|].
            destruct (path_prefix q _ _ _ H Pq) as [e' He']; [intros ->; apply Nq, prefix_refl|].
            rewrite Hu in He'. injection He' as ->. inversion X.
          * exists w. split; [|exact Nw]. eapply shape_leaf; [apply shape_sym; exact Sh|exact Hw|exact Nw].
    Qed.

    (** a variable has been read: [P] is the path of its section *)
    Definition tok_at (st : pstate) (P : list key) (t : extvar) : Prop :=
      exists idcs v', mapM (get_indexvalue (ps_loops st)) (snd t) = Ok idcs /\
        user_path (P ++ KStr (fst t) :: map KInt idcs) /\
        look st (P ++ KStr (fst t) :: map KInt idcs) = Some v' /\ ~ is_dict v'.
    Definition toks (st : pstate) (T : list extvar) : Prop := forall t, In t T -> tok_at st (pre (ps_up st)) t.

    (** the same for the open section and the enclosing ones *)
    Fixpoint levels (st : pstate) (up : list frame) (O : list (list str * list extvar)) {struct O} : Prop :=
      match O with
      | [] => False
      | (s, T) :: O' =>
          s = map fr_name up /\ (forall t, In t T -> tok_at st (pre up) t) /\
          match up with [] => O' = [] | _ :: fs => levels st fs O' end
      end.
    Lemma tok_grows st st' P t : grows st st' -> ps_loops st' = ps_loops st -> tok_at st P t -> tok_at st' P t.
    Proof.
      intros Gr E (idcs & v & H1 & H2 & H3 & H4). destruct (Gr _ _ H2 H3 H4) as (v' & H5 & H6).
      exists idcs, v'. rewrite E. auto.
    Qed.
    Lemma levels_grows st st' O : forall up, grows st st' -> ps_loops st' = ps_loops st -> levels st up O -> levels st' up O.
    Proof.
      induction O as [|[s T] O IH]; intros up Gr E H; [exact H|]. cbn [levels] in *. destruct H as (H1 & H2 & H3).
      split; [exact H1|]. split; [intros t I; eapply tok_grows; eauto|]. destruct up; [exact H3|now apply IH].
    Qed.
    Lemma toks_grows st st' T : grows st st' -> ps_loops st' = ps_loops st -> ps_up st' = ps_up st -> toks st T -> toks st' T.
    Proof. intros Gr E U H t I. rewrite U. eapply tok_grows; eauto. Qed.

    (** a variable read: its value in [D] and what the reader has *)
    Lemma tok_values s L st k x ix : rst D s L st -> is_loop L x = false -> G s x = Some k ->
      tok_at st (pre (ps_up st)) (x, ix) ->
      exists idcs v v', mapM (get_indexvalue (ps_loops st)) ix = Ok idcs /\
        path_get (at_path st x idcs) (VDict D) = Some v /\ printed wo ro k v v' /\
        get_raw (scope_of st) false x ix = Ok v' /\ look st (at_path st x idcs) = Some v'.
    Proof.
      intros R NL K (idcs & v' & E & U & Hl & N'). cbn [fst snd] in *. fold (at_path st x idcs) in *.
      pose proof R as [S [P _]]. destruct (P _ _ U Hl) as (v & Hv & [[_ X]|(k' & K' & X)]); [destruct (N' X)|].
      destruct (printed_leaf _ _ _ _ _ X) as [Nv _].
      destruct (r_get _ _ _ _ _ _ _ _ R NL K E Hv Nv) as [_ [(w & A & B & C)|(er & _ & _ & B)]]; [|congruence].
      rewrite Hl in B. injection B as <-. exists idcs, v, v'. auto.
    Qed.
  End One.
End Round.
