(** C31: all instructions of a recipe. *)
From Coq Require Import Ascii String ZArith Bool Lia List.
From Coq Require Import Floats.SpecFloat.
From Verif Require Import PyBase PyFloat ModelFortran ModelRecords ModelNum ModelRecipe ModelInterp.
From Verif Require Import SpecFields SpecInterp SpecRound ProofPyBase ProofFields ProofRecords.
From Verif Require Import ProofInterp ProofInterpFrame ProofInterpCtl ProofInterpSec ProofInterpMap ProofInterpWrite.
From Verif Require Import ProofRound1 ProofRound2 ProofRound3 ProofRound4 ProofThird ProofRound5 ProofRound6 ProofRound7 ProofRound8 ProofLook.
Import ListNotations.
Open Scope Z_scope.

Section Recipe.
  Variable wo : wopts.
  Variable ro : ropts.
  Variable blank : bool.
  Variable depth : nat.
  Variable G : schema.
  Hypothesis GG : good_schema G.
  Variable D : dict.
  Hypothesis CD : conforms wo ro G D.
  Hypothesis ZO : zeros_ok wo ro.
  Hypothesis SW : same_width wo ro.

  Let EW := write_env ro wo blank depth.
  Let ER := read_env ro wo depth.
  Let wst := wst G D.
  Let instep := instep wo ro G D.
  Let sim := sim wo ro G D.
  Let simp := simp wo ro G D.
  Let begun := begun wo ro depth G.
  Let leads := leads wo ro blank depth G.
  Let leads_opt := leads_opt wo ro blank depth G.
  Let test_ok := test_ok G.
  Let cols := (6 * w_width wo)%nat.

  Definition first_of (s L : list str) (b : block) (sw sr sr' : pstate) : Prop :=
    forall p, first_record b = Some p -> begun s L p sw sr sr'.
  Definition entry (s L : list str) (b : block) (sw sr sr' : pstate) : Prop := stops b = false /\ first_of s L b sw sr sr'.

  Lemma first_leads s L b c sw sr sr' : match c with Some c => truthvalue EW (scope_of sw) c = Ok true | None => True end ->
    entry s L b sw sr sr' -> leads_opt s L (look_entry c b) sw sr sr'.
  Proof.
    intros Tc [St Fb]. unfold look_entry. rewrite St. destruct (first_record b) as [p|] eqn:Fr; [|exact I].
    exists (p, c). split; [now left|]. split; [now apply Fb|exact Tc].
  Qed.
  Lemma leads_l s L a Q sw sr sr' : leads_opt s L a sw sr sr' ->
    leads_opt s L match a, Q with Some x, Some y => Some (x ++ y) | _, _ => None end sw sr sr'.
  Proof.
    destruct a as [a|]; [|intros _; exact I]. destruct Q as [Q|]; [|intros _; exact I]. intros (q & Iq & H). exists q. split; [apply in_or_app; now left|exact H].
  Qed.
  Lemma leads_r s L a Q sw sr sr' : leads_opt s L Q sw sr sr' ->
    leads_opt s L match a, Q with Some x, Some y => Some (x ++ y) | _, _ => None end sw sr sr'.
  Proof.
    destruct a as [a|]; [|intros _; exact I]. destruct Q as [Q|]; [|intros _; exact I]. intros (q & Iq & H). exists q. split; [apply in_or_app; now right|exact H].
  Qed.

  Lemma simp_branches b r els s L O T T' elw elr :
    test_ok s L O T (looks_of (RCons b r) els) b ->
    simp (entry s L match b with Branch _ _ body => body end) s L O T T' (exec_branch EW b) (exec_branch ER b) ->
    simp (leads_opt s L (looks_of r els)) s L O T T' (exec_branches EW r elw) (exec_branches ER r elr) ->
    simp (leads_opt s L (looks_of (RCons b r) els)) s L O T T'
      (run t <- test_branch EW b; if t then exec_branch EW b else exec_branches EW r elw)
      (run t <- test_branch ER b; if t then exec_branch ER b else exec_branches ER r elr).
  Proof.
    intros C Sa Sb. destruct b as [c la body]. rewrite !test_branch_eq.
    eapply simp_test; [exact GG|exact CD|exact C|exact Sa|exact Sb| |].
    - intros sw sr sr' Tc E. cbn [looks_of]. apply leads_l. now apply first_leads.
    - intros sw sr sr' E. cbn [looks_of]. now apply leads_r.
  Qed.

  Lemma sim_recipe :
    (forall i s L O T T', readable G cols s L O T i = Some T' -> sim s L O T T' (exec EW i) (exec ER i)) /\
    (forall b s L O T T', readable_block G cols s L O T b = Some T' -> simp (first_of s L b) s L O T T' (exec_block EW b) (exec_block ER b)) /\
    (forall b s L O T Q Ts, readable_branch G cols s L O T Q b = Some Ts -> test_ok s L O T Q b /\
       forall T', (forall A t, In A Ts -> In t T' -> In t A) ->
         simp (entry s L match b with Branch _ _ body => body end) s L O T T' (exec_branch EW b) (exec_branch ER b)) /\
    (forall r s L O T els Ts T' elw elr, readable_branches G cols s L O T r els = Some Ts -> (forall A t, In A Ts -> In t T' -> In t A) ->
       simp (leads_opt s L (look_entry None els)) s L O T T' elw elr ->
       simp (leads_opt s L (looks_of r els)) s L O T T' (exec_branches EW r elw) (exec_branches ER r elr)).
  Proof.
    apply recipe_mut; intros; try discriminate.
    - apply sim_guard. now apply sim_cont.
    - apply sim_guard. now apply sim_text.
    - apply sim_guard. now apply sim_dir.
    - apply sim_guard. now apply sim_tab1.
    - apply sim_guard. now apply sim_tab2.
    - apply sim_guard. now apply sim_list.
    - (* section *)
      rename H into IH, H0 into Rd. rewrite !exec_section_eq. apply sim_guard. rewrite read_section_eq in Rd.
      destruct (str_eqb (fst head) (fst tail) && section_var G s L head) eqn:C; [|discriminate]. apply andb_true_iff in C as [C1 C2].
      rewrite C1. cbn [negb].
      destruct (readable_block G cols (fst head :: s) L ((s, T) :: O) [] body) as [T1|] eqn:B; [|discriminate]. injection Rd as <-.
      eapply sim_eq; [eapply sim_section; [exact GG|exact C2|eapply simp_sim; exact (IH _ _ _ _ _ B)]| |]; intros st _; apply section_in_section.
    - (* loop *)
      rename H into IH, H0 into Rd. rewrite !exec_for_eq. apply sim_guard. rewrite read_for_eq in Rd.
      destruct (control G L ((s, T) :: O) start && control G L ((s, T) :: O) stop && new_loop G s L v) eqn:C; [|discriminate].
      rewrite !andb_true_iff in C. destruct C as [[Ca Cb] NL]. destruct (readable_block G cols s (v :: L) O T body) as [T1|] eqn:B; [|discriminate].
      injection Rd as <-. eapply sim_loop; [exact GG|exact CD|exact Ca|exact Cb|exact NL|]. eapply simp_sim. exact (IH _ _ _ _ _ B).
    - (* if *)
      rename H into IH1, H0 into IH2, H1 into IH3, H2 into Rd. rewrite !exec_if_eq. apply sim_guard. rewrite read_if_eq in Rd.
      destruct (readable_branch G cols s L O T (looks_of (RCons first more) els) first) as [Ta|] eqn:R1; [|discriminate].
      destruct (readable_branches G cols s L O T more els) as [Tb|] eqn:R2; [|discriminate].
      destruct (IH1 _ _ _ _ _ _ R1) as (C & Sa).
      assert (X : exists l, T' = meet_all T l /\ (forall A, In A Ta \/ In A Tb -> In A l) /\
        simp (leads_opt s L (look_entry None els)) s L O T T' (exec_block EW els) (exec_block ER els)).
      { destruct (stops els) eqn:St.
        - injection Rd as <-. eexists. split; [reflexivity|]. split; [intros A; rewrite in_app_iff; tauto|]. now apply simp_stops.
        - destruct (readable_block G cols s L O T els) as [Tc|] eqn:R3; [|discriminate]. injection Rd as <-. eexists. split; [reflexivity|].
          split; [intros A; rewrite !in_app_iff; tauto|]. eapply simp_weak; [exact (IH3 _ _ _ _ _ R3)| |].
          + intros t I. eapply meet_all_In; [exact I|]. rewrite !in_app_iff. right. right. now left.
          + intros sw sr sr' F. apply first_leads; [exact I|]. split; assumption. }
      destruct X as (l & E & Sub & Sc). eapply simp_sim. eapply simp_branches; [exact C| |].
      + apply Sa. intros A t IA It. rewrite E in It. eapply meet_all_In; eauto.
      + eapply IH2; [exact R2| |exact Sc]. intros A t IA It. rewrite E in It. eapply meet_all_In; eauto.
    - injection H as <-. rewrite !exec_nil_eq. apply sim_simp; [apply sim_ret|]. intros a b c p Fr. discriminate.
    - match goal with |- context [BCons _ ?x] => rename x into r end. rename H into IHi, H0 into IHr, H1 into Rd. rewrite read_cons_eq in Rd. destruct (readable G cols s L O T i) as [T1|] eqn:R1; [|discriminate].
      rewrite !exec_cons_eq.
      assert (S2 : sim s L O T1 T' (exec_block EW r) (exec_block ER r)) by (eapply simp_sim; exact (IHr _ _ _ _ _ Rd)).
      assert (S : simp (first_of s L (BCons i r)) s L O T T' (run _ <- exec EW i; exec_block EW r) (run _ <- exec ER i; exec_block ER r)).
      { destruct (first_record (BCons i r)) as [p|] eqn:Fr.
        - eapply simp_weak; [eapply simp_seq; [|eapply begun_record; eauto|exact S2]|auto|].
          + intros sw sr x y B Gr K. eapply begun_grows; eauto.
          + intros sw sr sr' B p' Fr'. rewrite Fr in Fr'. injection Fr' as <-. exact B.
        - apply sim_simp; [eapply sim_seq; [exact (IHi _ _ _ _ _ R1)|exact S2]|]. intros a b c p Fp. congruence. }
      eapply simp_eq; [exact S| |]; intros st Ls; unfold mbind at 1, should_proceed; now rewrite Ls.
    - rename H into IH, H0 into Rd. rewrite read_branch_eq in Rd.
      destruct (match lookahead with None => control_cond G L ((s, T) :: O) c | Some k => look_ok G s L O T c k body Q end) eqn:C; [|discriminate].
      split; [exact C|]. intros T' Sub. rewrite !exec_branch_eq.
      destruct (stops body) eqn:St; [now apply simp_stops|]. destruct (readable_block G cols s L O T body) as [T1|] eqn:R; [|discriminate].
      injection Rd as <-. eapply simp_weak; [exact (IH _ _ _ _ _ R)| |].
      + intros t It. apply (Sub T1 t); [now left|exact It].
      + intros sw sr sr' F. split; assumption.
    - rewrite !exec_rnil_eq. exact H1.
    - rename H into IHb, H0 into IHr, H1 into Rd, H2 into Sub, H3 into Se. rewrite read_rcons_eq in Rd.
      destruct (readable_branch G cols s L O T (looks_of (RCons b r) els) b) as [Ta|] eqn:R1; [|discriminate].
      destruct (readable_branches G cols s L O T r els) as [Tb|] eqn:R2; [|discriminate]. injection Rd as <-.
      rewrite !exec_rcons_eq. destruct (IHb _ _ _ _ _ _ R1) as (C & Sa). apply simp_branches; [exact C| |].
      + apply Sa. intros A t IA It. apply (Sub A t); [apply in_app_iff; now left|exact It].
      + eapply IHr; [exact R2| |exact Se]. intros A t IA It. apply (Sub A t); [apply in_app_iff; now right|exact It].
  Qed.
End Recipe.
