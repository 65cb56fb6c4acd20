(** C31: opening and closing sections, in the writer and in the reader. *)
From Coq Require Import Ascii String ZArith Bool Lia List.
From Coq Require Import Floats.SpecFloat.
From Verif Require Import PyBase PyFloat ModelFortran ModelRecords ModelNum ModelRecipe ModelInterp.
From Verif Require Import SpecFields SpecInterp SpecRound ProofPyBase ProofInterp ProofInterpFrame ProofInterpSec.
From Verif Require Import ProofRound1 ProofRound2 ProofRound3.
Import ListNotations.
Open Scope Z_scope.

(** what instructions leave as it is *)
Record kept (a b : pstate) : Prop := {
  kp_up : ps_up b = ps_up a;
  kp_loops : ps_loops b = ps_loops a;
  kp_abbr : abbr_same (ps_dic a) (ps_dic b);
  kp_look : ps_look b = ps_look a;
  kp_opts : ps_opts b = ps_opts a
}.
Lemma kept_refl a : kept a a. Proof. constructor; try reflexivity. apply abbr_refl. Qed.
Lemma kept_trans a b c : kept a b -> kept b c -> kept a c.
Proof. intros [? ? A1 ? ?] [? ? A2 ? ?]. constructor; try congruence. eapply abbr_trans; eauto. Qed.

(** ** Paths *)

Lemma dict_shape d d' : same_shape (Some (VDict d)) (Some (VDict d')).
Proof. right. eauto. Qed.
Lemma shape_refl' a : same_shape a a. Proof. now left. Qed.

Lemma working_shape d d' : (forall k, ~ working_key k -> dget k d' = dget k d) ->
  forall q, user_path q -> same_shape (path_get q (VDict d')) (path_get q (VDict d)).
Proof.
  intros H [|k q] U; [apply dict_shape|]. inversion U; subst. cbn [path_get]. rewrite H by assumption. now left.
Qed.

Lemma root_user_shape up d d' : opened up ->
  (forall q, user_path q -> same_shape (path_get q (VDict d')) (path_get q (VDict d))) ->
  forall p, user_path p -> same_shape (path_get p (VDict (root up d'))) (path_get p (VDict (root up d))).
Proof.
  intros O H p U. destruct (prefix_dec (pre up) p) as [[q ->]|N].
  - rewrite !root_in by exact O. apply H. apply user_app in U. tauto.
  - now apply root_out.
Qed.

Lemma open_stored create x f dic inner d1 :
  open_path create x (frame_keys f) (VDict dic) = Ok (inner, VDict (fr_dic f)) ->
  stored (frame_keys f) (VDict d1) (VDict dic) (VDict (outer f d1)).
Proof.
  intros H. destruct (open_path_ok _ _ _ _ _ _ H) as (A & B & _). split.
  - intros q. eapply outer_in. exact A.
  - intros q N. destruct (prefix_dec q (frame_keys f)) as [P|P].
    + left. split; [exact P|]. destruct (path_prefix q _ _ _ A P) as [e He]; [intros ->; apply N, prefix_refl|].
      rewrite outer_put. destruct (put_get _ (VDict d1) _ _ A) as [_ Sh]. specialize (Sh q N).
      destruct (shape_dict _ _ e (shape_sym _ _ Sh) He) as [e' He']. eauto.
    + right. left. destruct (outer_ok f d1 _ A) as [_ E]. rewrite (E q (conj N P)). apply B. now split.
Qed.

Lemma open_path_create name ks : forall cur, (forall q w, is_prefix q ks -> path_get q cur = Some w -> is_dict w) ->
  exists inner d, open_path true name ks cur = Ok (inner, VDict d).
Proof.
  induction ks as [|k ks IH]; intros cur F; destruct (F [] cur (prefix_nil _) eq_refl) as [d ->]; cbn [open_path].
  - eauto.
  - destruct (dget k d) as [o|] eqn:E.
    + destruct (IH o) as (inner & d' & ->); [|cbn [bind]; eauto].
      intros q w P Hq. apply (F (k :: q)); [now apply prefix_cons|]. cbn [path_get]. now rewrite E.
    + destruct (IH (VDict [])) as (inner & d' & ->); [|cbn [bind]; eauto].
      intros q w P Hq. destruct q as [|k' q]; [injection Hq as <-; eexists; reflexivity|]. cbn in Hq. discriminate.
Qed.

Section Sections.
  Variable wo : wopts.
  Variable ro : ropts.
  Variable blank : bool.
  Variable depth : nat.
  Variable G : schema.
  Hypothesis GG : good_schema G.
  Variable D : dict.
  Hypothesis CD : conforms wo ro G D.

  Let EW := write_env ro wo blank depth.
  Let ER := read_env ro wo depth.

  (** a reader in step with a writer *)
  Record instep (s L : list str) (O : list (list str * list extvar)) (T : list extvar) (sw sr : pstate) : Prop := {
    is_rst : rst wo ro G D s L sr;
    is_al : aligned sw sr;
    is_lv : levels sr (ps_up sr) ((s, T) :: O)
  }.

  Lemma instep_toks s L O T sw sr : instep s L O T sw sr -> toks sr T.
  Proof. intros [_ _ H]. cbn [levels] in H. tauto. Qed.

  (** the entries do not change *)
  Definition same_entries (a b : pstate) : Prop := forall p, user_path p -> same_shape (look b p) (look a p).

  Lemma wst_same s L s' L' a b : wst G D s L a -> same_entries a b -> shape_ok G s' L' b -> wst G D s' L' b.
  Proof. intros [_ W] E S. split; [exact S|]. intros p U. eapply shape_trans; [now apply E|now apply W]. Qed.
  Lemma rst_same s L s' L' a b : rst wo ro G D s L a -> same_entries a b -> shape_ok G s' L' b -> ps_opts b = ps_opts a ->
    rst wo ro G D s' L' b.
  Proof.
    intros (_ & P & Op) E S Eo. split; [exact S|]. split; [|now rewrite Eo]. intros p v' U H. fold (look b p) in H.
    destruct (E p U) as [X|(e & e' & X1 & X2)].
    - rewrite X in H. exact (P p v' U H).
    - rewrite X1 in H. injection H as <-. destruct (P p _ U X2) as (u & Hu & [[Y _]|(k & _ & Y)]).
      + exists u. split; [exact Hu|]. left. split; [exact Y|eexists; reflexivity].
      + destruct (printed_leaf _ _ _ _ _ Y) as [_ Y']. destruct Y'. eexists; reflexivity.
  Qed.
  Lemma grows_same a b : same_entries a b -> grows a b.
  Proof. intros E p v U H N. exists v. split; [|exact N]. eapply shape_leaf; [apply shape_sym, E; exact U|exact H|exact N]. Qed.

  Lemma working_same st d' : opened (ps_up st) -> (forall k, ~ working_key k -> dget k d' = dget k (ps_dic st)) ->
    same_entries st (set_dic d' st).
  Proof. intros O H p U. apply root_user_shape; [exact O|now apply working_shape|exact U]. Qed.

  Lemma shape_dic s L st d' : shape_ok G s L st -> shape_ok G s L (set_dic d' st).
  Proof. intros []. constructor; assumption. Qed.

  (** ** Opening *)

  Lemma section_ok s L st (u : extvar) : shape_ok G s L st -> section_var G s L u = true ->
    G s (fst u) = Some SecV /\ exists idcs, mapM (get_indexvalue (ps_loops st)) (snd u) = Ok idcs.
  Proof.
    intros S H. unfold section_var in H. apply andb_true_iff in H as [A B]. apply has_kind_eq in B. split; [exact B|].
    eapply indices_ok; eauto.
  Qed.

  Lemma open_inv en u st st1 : open_section en u st = (Ok tt, st1) ->
    exists idcs inner f, mapM (get_indexvalue (ps_loops st)) (snd u) = Ok idcs /\
      fr_name f = fst u /\ fr_idx f = idcs /\
      open_path (negb (e_write en)) (fst u) (frame_keys f) (VDict (ps_dic st)) = Ok (inner, VDict (fr_dic f)) /\
      st1 = set_up (f :: ps_up st) (dset (KStr $"__up") VUp inner) st.
  Proof.
    destruct u as [x ix]. unfold open_section. cbn [fst snd]. destruct (mapM _ ix) as [idcs|]; [|discriminate]. cbn [bind].
    destruct (open_path _ _ _ _) as [[inner cur]|] eqn:E; [|discriminate]. cbn [bind].
    destruct cur; try discriminate. intros H. injection H as <-.
    exists idcs, inner, {| fr_dic := d; fr_name := x; fr_idx := idcs |}. cbn [fr_name fr_idx fr_dic]. repeat split. exact E.
  Qed.

  Lemma shape_open s L st (u : extvar) f d1 inner create idcs : shape_ok G s L st -> G s (fst u) = Some SecV ->
    fr_name f = fst u -> fr_idx f = idcs ->
    open_path create (fst u) (frame_keys f) (VDict (ps_dic st)) = Ok (inner, VDict (fr_dic f)) ->
    shape_ok G (fst u :: s) L (set_up (f :: ps_up st) d1 st).
  Proof.
    intros [S1 S2 S3 S4 S5] K En Ei Op. constructor; cbn [set_up ps_look ps_up ps_loops]; auto.
    - constructor; [|exact S2]. eexists. apply (open_path_ok _ _ _ _ _ _ Op).
    - cbn [map]. now rewrite En, <- S3.
    - cbn [sec_frames]. rewrite En, <- S3. auto.
  Qed.

  Lemma up_working : working_key (KStr $"__up"). Proof. now left. Qed.

  Lemma w_open s L sw sw1 (u : extvar) : wst G D s L sw -> section_var G s L u = true -> open_section EW u sw = (Ok tt, sw1) ->
    wst G D (fst u :: s) L sw1 /\ ps_lines sw1 = ps_lines sw /\ ps_ofs sw1 = ps_ofs sw /\ ps_loops sw1 = ps_loops sw /\
    ps_look sw1 = ps_look sw /\ ps_opts sw1 = ps_opts sw /\
    exists f idcs e, ps_up sw1 = f :: ps_up sw /\ fr_name f = fst u /\ fr_idx f = idcs /\
      mapM (get_indexvalue (ps_loops sw)) (snd u) = Ok idcs /\
      dget abbr_key (fr_dic f) = dget abbr_key (ps_dic sw) /\
      path_get (pre (ps_up sw1)) (VDict D) = Some (VDict e).
  Proof.
    intros [S W] SV H. destruct (section_ok _ _ _ _ S SV) as [K _].
    destruct (open_inv _ _ _ _ H) as (idcs & inner & f & Ei & En & Ex & Op & ->). cbn [negb e_write EW write_env] in Op.
    pose proof (shape_open _ _ _ _ f (dset (KStr $"__up") VUp inner) _ _ _ S K En Ex Op) as S1.
    destruct (open_path_ok _ _ _ _ _ _ Op) as (A & B & _ & C). specialize (C eq_refl).
    pose proof (open_stored _ _ _ _ _ (dset (KStr $"__up") VUp inner) Op) as St.
    apply (root_stored (ps_up sw)) in St; [|apply (so_open _ _ _ _ S)]. destruct St as [St1 St2].
    assert (Old : look sw (pre (ps_up sw) ++ frame_keys f) = Some (VDict inner)).
    { unfold look. rewrite root_in by apply (so_open _ _ _ _ S). rewrite <- C. exact A. }
    assert (U' : user_path (pre (ps_up sw) ++ frame_keys f)).
    { apply (user_pre G GG (f :: ps_up sw)). apply (so_sec _ _ _ _ S1). }
    cbn [set_up ps_lines ps_ofs ps_loops ps_look ps_opts ps_up].
    split; [|repeat (split; [reflexivity|])].
    - eapply (wst_same s L); [split; eassumption| |exact S1].
      intros p U. unfold look at 1. cbn [set_up ps_up ps_dic root].
      destruct (prefix_dec (pre (ps_up sw) ++ frame_keys f) p) as [[q ->]|N].
      + rewrite St1. unfold look. rewrite path_get_app. fold (look sw (pre (ps_up sw) ++ frame_keys f)). rewrite Old.
        apply user_app in U as [_ U]. apply working_shape; [|exact U].
        intros k Nk. apply dget_dset_other. intros ->. apply Nk, up_working.
      + destruct (St2 p N) as [[P [e He]]|Sh]; [|exact Sh]. rewrite He.
        destruct (path_prefix p _ _ _ Old P) as [e' He']; [intros ->; apply N, prefix_refl|]. unfold look. rewrite He'. apply dict_shape.
    - destruct (shape_dict _ _ inner (W _ U') Old) as [e He].
      exists f, idcs, e. repeat split; auto.
      pose proof (C [abbr_key]) as Ca. cbn [path_get] in Ca. destruct (dget abbr_key (fr_dic f)), (dget abbr_key (ps_dic sw)); congruence.
  Qed.

  Lemma r_open s L O T sr (u : extvar) sw sw1 fw e : instep s L O T sw sr -> section_var G s L u = true ->
    ps_up sw1 = fw :: ps_up sw -> fr_name fw = fst u -> ps_loops sw1 = ps_loops sw ->
    mapM (get_indexvalue (ps_loops sw)) (snd u) = Ok (fr_idx fw) ->
    path_get (pre (ps_up sw1)) (VDict D) = Some (VDict e) ->
    exists sr1 f, open_section ER u sr = (Ok tt, sr1) /\ instep (fst u :: s) L ((s, T) :: O) [] sw1 sr1 /\ grows sr sr1 /\
      ps_lines sr1 = ps_lines sr /\ ps_ofs sr1 = ps_ofs sr /\ ps_loops sr1 = ps_loops sr /\ ps_look sr1 = ps_look sr /\
      ps_opts sr1 = ps_opts sr /\ ps_up sr1 = f :: ps_up sr /\ fr_name f = fst u /\
      dget abbr_key (fr_dic f) = dget abbr_key (ps_dic sr).
  Proof.
    intros [R A Lv] SV Eu En Elp Ei HD. pose proof R as [S (P & Op)]. destruct (section_ok _ _ _ _ S SV) as [K _].
    assert (Ei' : mapM (get_indexvalue (ps_loops sr)) (snd u) = Ok (fr_idx fw)).
    { destruct A as [<- _]. exact Ei. }
    set (ks := KStr (fst u) :: map KInt (fr_idx fw)).
    assert (Eks : pre (ps_up sw1) = pre (ps_up sr) ++ ks).
    { rewrite Eu. cbn [pre]. rewrite (aligned_pre _ _ A). unfold frame_keys. now rewrite En. }
    rewrite Eks in HD.
    assert (U' : user_path (pre (ps_up sr) ++ ks)).
    { eapply user_var; [exact GG|apply (so_sec _ _ _ _ S)|rewrite <- (so_names _ _ _ _ S); exact K]. }
    assert (F : forall q w, is_prefix q ks -> path_get q (VDict (ps_dic sr)) = Some w -> is_dict w).
    { intros q w Pq Hq. rewrite local_get in Hq by apply (so_open _ _ _ _ S).
      assert (Pq' : is_prefix (pre (ps_up sr) ++ q) (pre (ps_up sr) ++ ks)) by now apply prefix_app_l.
      destruct (P _ w ltac:(eapply user_prefix; [exact Pq'|exact U']) Hq) as (v & Hv & [[_ X]|(k & _ & X)]); [exact X|exfalso].
      assert (exists e', path_get (pre (ps_up sr) ++ q) (VDict D) = Some (VDict e')) as [e' He'].
      { destruct (list_eq_dec key_dec (pre (ps_up sr) ++ q) (pre (ps_up sr) ++ ks)) as [Eq|Nq]; [rewrite Eq; eauto|].
        exact (path_prefix _ _ _ _ HD Pq' Nq). }
      rewrite Hv in He'. injection He' as ->. inversion X. }
    destruct (open_path_create (fst u) ks (VDict (ps_dic sr)) F) as (inner & d & Hop).
    set (f := {| fr_dic := d; fr_name := fst u; fr_idx := fr_idx fw |}).
    set (d1 := dset (KStr $"__up") VUp inner). set (sr1 := set_up (f :: ps_up sr) d1 sr).
    assert (Ho : open_section ER u sr = (Ok tt, sr1)).
    { unfold open_section. destruct u as [x ix]. cbn [fst snd] in *. rewrite Ei'. cbn [bind ER read_env e_write negb]. fold ks.
      rewrite Hop. cbn [bind]. reflexivity. }
    pose proof (shape_open _ _ _ _ f d1 _ _ _ S K eq_refl eq_refl Hop) as S1.
    destruct (open_path_ok _ _ _ _ _ _ Hop) as (A1 & B1 & C1 & _).
    pose proof (open_stored _ _ f _ _ d1 Hop) as St. change (frame_keys f) with ks in St.
    apply (root_stored (ps_up sr)) in St; [|apply (so_open _ _ _ _ S)]. destruct St as [St1 St2].
    assert (Old : match look sr (pre (ps_up sr) ++ ks) with Some v => v = VDict inner | None => inner = [] end).
    { unfold look. rewrite root_in by apply (so_open _ _ _ _ S). 
 revert C1. destruct (path_get ks (VDict (ps_dic sr))); tauto. }
    assert (Dic : forall p, is_prefix p (pre (ps_up sr) ++ ks) -> exists e', path_get p (VDict D) = Some (VDict e')).
    { intros p Pp. destruct (list_eq_dec key_dec p (pre (ps_up sr) ++ ks)) as [->|Nq]; [eauto|]. exact (path_prefix _ _ _ _ HD Pp Nq). }
    assert (Gr : grows sr sr1).
    { intros p v U Hp Nv. destruct (prefix_dec (pre (ps_up sr) ++ ks) p) as [[q ->]|N].
      - unfold look in Hp. rewrite path_get_app in Hp. fold (look sr (pre (ps_up sr) ++ ks)) in Hp.
        destruct (look sr (pre (ps_up sr) ++ ks)) as [o|]; [|discriminate]. subst o.
        exists v. split; [|exact Nv]. unfold look, sr1. cbn [set_up ps_up ps_dic root]. rewrite St1.
        apply user_app in U as [_ U]. eapply shape_leaf; [|exact Hp|exact Nv]. apply shape_sym, working_shape; [|exact U].
        intros k Nk. apply dget_dset_other. intros ->. apply Nk, up_working.
      - destruct (St2 p N) as [[Pp [e' He']]|Sh].
        + exfalso. destruct (P p v U Hp) as (w & Hw & [[_ X]|(k & _ & X)]); [now apply Nv|].
          destruct (Dic p Pp) as [e2 He2]. rewrite Hw in He2. injection He2 as ->. inversion X.
        + exists v. split; [|exact Nv]. eapply shape_leaf; [apply shape_sym; exact Sh|exact Hp|exact Nv]. }
    exists sr1, f. split; [exact Ho|]. split; [|split; [exact Gr|]].
    - constructor.
      + split; [exact S1|]. split; [|exact Op]. intros p v' U Hp. fold (look sr1 p) in Hp. unfold look, sr1 in Hp. cbn [set_up ps_up ps_dic root] in Hp.
        destruct (prefix_dec (pre (ps_up sr) ++ ks) p) as [[q ->]|N].
        * rewrite St1 in Hp. destruct q as [|k q].
          { injection Hp as <-. rewrite app_nil_r. exists (VDict e). split; [exact HD|]. left. split; eexists; reflexivity. }
          apply (P _ v' U). rewrite path_get_app. fold (look sr (pre (ps_up sr) ++ ks)).
          assert (Hq : path_get (k :: q) (VDict inner) = Some v').
          { apply user_app in U as [_ U]. inversion U; subst. rewrite <- Hp. symmetry. apply path_get_dset_other. intros ->.
            apply H1. apply up_working. }
          destruct (look sr (pre (ps_up sr) ++ ks)) as [o|]; [subst o; exact Hq|]. subst inner. discriminate.
        * destruct (St2 p N) as [[Pp [e' He']]|[Eq|(e1 & e2 & E1 & E2)]].
          { rewrite He' in Hp. injection Hp as <-. destruct (Dic p Pp) as [e2 He2]. exists (VDict e2). split; [exact He2|].
            left. split; eexists; reflexivity. }
          { rewrite Eq in Hp. exact (P p v' U Hp). }
          { rewrite E1 in Hp. injection Hp as <-. destruct (P p _ U E2) as (w & Hw & [[Y _]|(k & _ & Y)]).
            - exists w. split; [exact Hw|]. left. split; [exact Y|eexists; reflexivity].
            - destruct (printed_leaf _ _ _ _ _ Y) as [_ Y']. destruct Y'. eexists; reflexivity. }
      + destruct A as [A1' A2']. split; cbn [sr1 set_up ps_loops ps_up]; [congruence|]. rewrite Eu. cbn [map]. rewrite A2'.
        f_equal. unfold frame_keys. now rewrite En.
      + cbn [levels]. split; [apply (so_names _ _ _ _ S1)|]. split; [intros t []|].
        change (levels sr1 (ps_up sr) ((s, T) :: O)). eapply levels_grows; [exact Gr|reflexivity|exact Lv].
    - cbn [sr1 set_up ps_lines ps_ofs ps_loops ps_look ps_opts ps_up]. repeat (split; [reflexivity|]).
      assert (Nk : abbr_key <> KStr (fst u)).
      { intros E. injection E as E. apply (schema_user G GG _ _ _ K). right. left. now symmetry. }
      pose proof (B1 [abbr_key]) as X. cbn [path_get] in X.
      assert (Un : unrelated ks [abbr_key]).
      { split; intros Q; apply prefix_cons_inv in Q as [Q _]; congruence. }
      specialize (X Un). cbn [f fr_dic]. destruct (dget abbr_key d), (dget abbr_key (ps_dic sr)); congruence.
  Qed.

  (** ** Closing *)

  Lemma shape_close s L st f fs d' x : shape_ok G (x :: s) L st -> ps_up st = f :: fs -> shape_ok G s L (set_up fs d' st).
  Proof.
    intros [S1 S2 S3 S4 S5] E. rewrite E in *. constructor; cbn [set_up ps_look ps_up ps_loops]; auto.
    - now inversion S2.
    - cbn [map] in S3. now injection S3.
    - apply S4.
  Qed.

  Lemma close_same st f fs : ps_up st = f :: fs -> opened (ps_up st) ->
    same_entries st (set_up fs (outer f (ddel (KStr $"__up") (ps_dic st))) st).
  Proof.
    intros E O p U. pose proof (working_same st (ddel (KStr $"__up") (ps_dic st)) O) as W.
    assert (H : forall k, ~ working_key k -> dget k (ddel (KStr $"__up") (ps_dic st)) = dget k (ps_dic st)).
    { intros k Nk. apply dget_ddel_other. intros ->. apply Nk, up_working. }
    specialize (W H p U). unfold look in *. cbn [set_dic set_up ps_up ps_dic] in *. rewrite E in *. exact W.
  Qed.

  Lemma close_eq st f fs : ps_up st = f :: fs ->
    close_section st = (Ok tt, set_up fs (outer f (ddel (KStr $"__up") (ps_dic st))) st).
  Proof. intros E. unfold close_section. now rewrite E. Qed.

  Lemma w_close s L st f fs x : wst G D (x :: s) L st -> ps_up st = f :: fs ->
    let st' := set_up fs (outer f (ddel (KStr $"__up") (ps_dic st))) st in
    close_section st = (Ok tt, st') /\ wst G D s L st' /\
    (G s (fr_name f) = Some SecV -> dget abbr_key (ps_dic st') = dget abbr_key (fr_dic f)).
  Proof.
    intros W E st'. split; [now apply close_eq|]. pose proof W as [S _]. split.
    - eapply wst_same; [exact W|apply close_same; [exact E|apply (so_open _ _ _ _ S)]|eapply shape_close; eauto].
    - intros K. cbn [st' set_up ps_dic]. apply outer_other. intros X. injection X as X. apply (schema_user G GG _ _ _ K). right. left. now symmetry.
  Qed.

  Lemma r_close s L O T T1 sw sw' sr f fs fw fws x : instep (x :: s) L ((s, T) :: O) T1 sw sr ->
    ps_up sr = f :: fs -> ps_up sw = fw :: fws -> ps_up sw' = fws -> ps_loops sw' = ps_loops sw ->
    let st' := set_up fs (outer f (ddel (KStr $"__up") (ps_dic sr))) sr in
    close_section sr = (Ok tt, st') /\ instep s L O T sw' st' /\ grows sr st' /\
    (G s (fr_name f) = Some SecV -> dget abbr_key (ps_dic st') = dget abbr_key (fr_dic f)).
  Proof.
    intros [R A Lv] E Ew Ew' El st'. pose proof R as [S _].
    pose proof (close_same _ _ _ E (so_open _ _ _ _ S)) as Sm. fold st' in Sm.
    split; [now apply close_eq|]. split; [|split].
    - constructor.
      + eapply rst_same; [exact R|exact Sm|eapply shape_close; eauto|reflexivity].
      + destruct A as [A1 A2]. split; [cbn [st' set_up ps_loops]; congruence|]. cbn [st' set_up ps_up].
        rewrite Ew, E in A2. rewrite Ew'. now injection A2.
      + cbn [st' set_up ps_up]. cbn [levels] in Lv. rewrite E in Lv. destruct Lv as (_ & _ & Lv).
        change (levels st' fs ((s, T) :: O)). eapply levels_grows; [apply grows_same; exact Sm|reflexivity|exact Lv].
    - now apply grows_same.
    - intros K. cbn [st' set_up ps_dic]. apply outer_other. intros X. injection X as X. apply (schema_user G GG _ _ _ K). right. left. now symmetry.
  Qed.
End Sections.
