(** The examples of ThmCppRead.v. *)
From Coq Require Import Ascii String ZArith Bool Lia List.
From Verif Require Import PyBase PyFloat ModelFortran ModelRecords ModelTape SpecFields SpecTape SpecLibm SpecTapeEx.
From Verif Require Import ProofPyBase ProofFields ProofTape.
From Verif Require Import ModelCpp ModelCppTab ModelCppRead SpecCpp SpecCppTab SpecCppRead ProofCppRead.
Import ListNotations.
Open Scope Z_scope.

(** the tape of SpecTapeEx as a tree *)
Definition ex_row (i : nat) : str := nth i ex_tape [].
Definition ex_material : tmaterial :=
  {| m_mat := 125; m_mend := ex_row 10;
     m_files := [ {| f_mf := 3; f_fend := ex_row 6;
                     f_secs := [ {| s_mt := 1; s_body := [ex_row 1; ex_row 2]; s_send := ex_row 3 |};
                                 {| s_mt := 2; s_body := [ex_row 4]; s_send := ex_row 5 |} ] |};
                  {| f_mf := 33; f_fend := ex_row 9;
                     f_secs := [ {| s_mt := 1; s_body := [ex_row 7]; s_send := ex_row 8 |} ] |} ] |}.
Definition ex_tree : tape := {| t_head := ex_row 0; t_mats := [ex_material]; t_tend := ex_row 11; t_rest := [] |}.

(** functions of recipes that give back the lines of the section *)
Definition ex_py (p : unit) (mf mt : Z) (lines : list str) : result (list str) * unit := (Ok (removelast lines), p).
Definition ex_cpp (mf mt : Z) (lines : list str) : cpp (list str * list str) :=
  match lines with
  | [] => Undefined
  | l :: r => if (mf =? 0) && (mt =? 0) then Val ([with_break l], r)
              else read_section_verbatim false (mkctrl 0 mf mt) false lines
  end.
Definition ex_has (mf mt : Z) : bool := true.
(** no section is parsed but those of MF 3 *)
Definition ex_include : selection := Some [SMf 3].
Definition ex_co (validate send : bool) : croopts :=
  {| cr_accept := r_spaces default_ro; cr_validate := validate; cr_blank := false; cr_send := send; cr_tpid := false |}.

(** ** By computation *)
Definition number_chars (s : str) : bool :=
  forallb (fun c => is_digit c || existsb (chr_eqb c) $" +-.eE") s.
Lemma number_chars_field s : number_chars s = true -> number_field s.
Proof.
  intros H c I. unfold number_chars in H. rewrite forallb_forall in H. specialize (H c I). apply orb_true_iff in H as [H|H]; [now left|right].
  apply existsb_exists in H as (x & J & E). apply chr_eqb_eq in E. subst x. cbn in J |- *. destruct J as [J|J]; [right; now symmetry|left; exact J].
Qed.
Definition plain_line_b (l : str) : bool :=
  (75 <=? length l)%nat && number_chars (slice 66 75 l) && negb (is_blank (slice 70 72 l)) && negb (is_blank (slice 72 75 l)) &&
  negb (chr_eqb (last l " "%char) (ascii_of_nat 13)).
Lemma plain_line_by l : plain_line_b l = true -> plain_line l.
Proof.
  unfold plain_line_b. rewrite !andb_true_iff, !negb_true_iff. intros ((((A & B) & C) & D) & E). apply Nat.leb_le in A.
  split; [exact A|]. split; [now apply number_chars_field|]. split; [intros X; apply blank_iff in X; congruence|].
  split; [intros X; apply blank_iff in X; congruence|]. intros X. apply chr_eqb_eq in X. congruence.
Qed.
Lemma plain_lines_by ls : forallb plain_line_b ls = true -> Forall plain_line ls.
Proof. intros H. rewrite forallb_forall in H. apply Forall_forall. intros l I. apply plain_line_by, H, I. Qed.
Definition plain_end_b (accept : bool) (l : str) : bool :=
  number_chars (firstn 66 l) && match endfstr2float accept (slice 0 11 l), endfstr2float accept (slice 11 22 l) with Val _, Val _ => true | _, _ => false end.
Lemma plain_end_by accept l : plain_end_b accept l = true -> plain_end accept l.
Proof.
  unfold plain_end_b. rewrite andb_true_iff. intros (A & B). apply number_chars_field in A.
  destruct (endfstr2float accept (slice 0 11 l)) as [f| |] eqn:E1; try discriminate. destruct (endfstr2float accept (slice 11 22 l)) as [g| |] eqn:E2; try discriminate.
  split; [exact A|]. split.
  - apply (range_by_value _ _ f); [apply (field_number l 0); [lia|exact A]|exact E1].
  - apply (range_by_value _ _ g); [apply (field_number l 1); [lia|exact A]|exact E2].
Qed.
Definition end_record_b (ro : ropts) (l : str) (mat mf : Z) : bool :=
  negb (is_blank l) && match read_ctrl ro l with Ok c => (MAT c =? mat) && (MF c =? mf) && (MT c =? 0) | Err _ => false end &&
  match read_send ro [l] 0 with Ok _ => true | Err _ => false end.
Lemma end_record_by ro l mat mf : end_record_b ro l mat mf = true -> end_record ro l mat mf.
Proof.
  unfold end_record_b. rewrite !andb_true_iff, negb_true_iff. intros ((A & B) & C).
  split; [intros X; apply blank_iff in X; congruence|]. destruct (read_ctrl ro l) as [[a b c]|] eqn:E; [|discriminate].
  rewrite !andb_true_iff in B. destruct B as ((B1 & B2) & B3). cbn [MAT MF MT] in *. apply Z.eqb_eq in B1, B2, B3. subst.
  split; [now apply carries_iff|]. destruct (read_send ro [l] 0) as [x|] eqn:S; [|discriminate].
  destruct (proj1 (read_send_iff ro l) (ex_intro _ x S)) as (a1 & a2 & a3 & a4 & a5 & a6 & _). auto 10.
Qed.

Ltac lines := repeat first [apply Forall_nil | apply Forall_cons].
Lemma ex_sec mf s : s_mt s <> 0 -> s_body s <> [] ->
  forallb (fun l => match read_ctrl default_ro l with Ok c => (MAT c =? 125) && (MF c =? mf) && (MT c =? s_mt s) | Err _ => false end) (s_body s) = true ->
  end_record_b default_ro (s_send s) 125 mf = true -> section_ok default_ro 125 mf s.
Proof.
  intros A B C D. split; [exact A|]. split; [exact B|]. split; [|now apply end_record_by].
  rewrite forallb_forall in C. apply Forall_forall. intros l I. specialize (C l I). destruct (read_ctrl default_ro l) as [[a b c]|] eqn:E; [|discriminate].
  rewrite !andb_true_iff in C. destruct C as ((B1 & B2) & B3). cbn [MAT MF MT] in *. apply Z.eqb_eq in B1, B2, B3. subst. now apply carries_iff.
Qed.
Lemma ex_material_ok : material_ok default_ro ex_material.
Proof.
  split; [discriminate|]. split; [discriminate|]. split; [|apply end_record_by; vm_compute; reflexivity].
  unfold ex_material. cbn [m_files m_mat]. lines; (split; [discriminate|]; split; [discriminate|]; split; [|apply end_record_by; vm_compute; reflexivity]);
    cbn [f_secs f_mf]; lines; (apply ex_sec; [discriminate|discriminate|vm_compute; reflexivity|vm_compute; reflexivity]).
Qed.
Lemma ex_tree_ok : tape_ok default_ro ex_tree.
Proof.
  split; [intros X; apply blank_iff in X; revert X; vm_compute; discriminate|]. split; [exists 1; apply carries_iff; vm_compute; reflexivity|].
  split; [lines; exact ex_material_ok|]. split; [apply end_record_by; vm_compute; reflexivity|lines].
Qed.
Lemma ex_tree_lines : tape_lines ex_tree = ex_tape.
Proof. vm_compute. reflexivity. Qed.
Lemma ex_plain : Forall plain_line ex_tape.
Proof. apply plain_lines_by. vm_compute. reflexivity. Qed.
Lemma ex_ends : Forall (fun f => plain_end (r_spaces default_ro) (f_fend f)) (m_files ex_material) /\
  plain_end (r_spaces default_ro) (m_mend ex_material) /\ plain_end (r_spaces default_ro) (t_tend ex_tree).
Proof. split; [unfold ex_material; cbn [m_files]; lines; cbn [f_fend]|split]; apply plain_end_by; vm_compute; reflexivity. Qed.
Lemma ex_sections mf s : In (mf, s) (sections ex_material) ->
  (mf, s) = (3, {| s_mt := 1; s_body := [ex_row 1; ex_row 2]; s_send := ex_row 3 |}) \/
  (mf, s) = (3, {| s_mt := 2; s_body := [ex_row 4]; s_send := ex_row 5 |}) \/
  (mf, s) = (33, {| s_mt := 1; s_body := [ex_row 7]; s_send := ex_row 8 |}).
Proof. unfold sections, ex_material. cbn [m_files map f_secs f_mf concat app In]. intros [H|[H|[H|[]]]]; auto. Qed.
Lemma ex_keys : NoDup (map (fun ms => (fst ms, s_mt (snd ms))) (sections ex_material)).
Proof.
  change (NoDup [(3, 1); (3, 2); (33, 1)]). repeat constructor; cbn [In]; intros H; repeat (destruct H as [H|H]; [discriminate H|]); exact H.
Qed.
Lemma ex_agree mf s : In (mf, s) (sections ex_material) ->
  recipes_agree ex_py ex_cpp default_ro default_wo mf (s_mt s) (s_body s) [s_send s].
Proof.
  intros I. exists (map with_break (s_body s)). split.
  - intros p send mat _. exists p. unfold ex_py. now rewrite removelast_last.
  - intros rest. apply ex_sections in I as [E|[E|E]]; inversion E; subst; vm_compute; reflexivity.
Qed.
Lemma ex_agree_head : recipes_agree ex_py ex_cpp default_ro default_wo 0 0 [t_head ex_tree] [].
Proof.
  exists [with_break (t_head ex_tree)]. split; [intros p send mat _; exists p; unfold ex_py; now rewrite removelast_last|reflexivity].
Qed.
