(** C64: texts that are not accepted are reported by exceptions of the package. *)
From Coq Require Import Ascii String ZArith Bool Lia List.
From Verif Require Import PyBase PyFloat ModelFortran ModelRecords ModelTape SpecFields SpecLibm SpecTape SpecTapeEx SpecReject ProofPyBase ProofFields ProofTape ProofReject.
Import ListNotations.
Open Scope Z_scope.

(** A text with at least one line that is not blank, whose lines carry control numbers, is
    split or refused with an exception of the package: any options, any nesting of records. *)
Theorem C64_framing : forall ro lines e,
  has_numbers (r_width ro) lines -> split_sections ro lines = Err e -> is_parser_exception e = true.
Proof. exact framing_err. Qed.

(** Any exception of a parser: one of the package, the one for control columns that are no
    numbers, the one for texts without content, or the exception of the recipe of a selected section. *)
Theorem C64_parse : forall (P D : Type) (pr : P -> Z -> Z -> list str -> result D * P) has ro wo nofail exc inc p lines e p',
  field_width wo -> parse_tape pr has ro wo nofail exc inc p lines = (Err e, p') ->
  reported (r_width ro) lines e \/ (e = IndexError /\ Forall blank lines) \/
  exists d mf mt ls, split_sections ro lines = Ok d /\ holds d mf mt ls /\ from_recipe pr has nofail exc inc mf mt ls e.
Proof. intros P D pr has ro wo nofail exc inc p lines e p' W. exact (parse_err pr has ro wo W nofail exc inc p lines e p'). Qed.

(** With nofail a text that can be split is parsed, whatever its sections hold, as long as
    recipes raise exceptions of the package only. *)
Theorem C64_nofail : forall (P D : Type) (pr : P -> Z -> Z -> list str -> result D * P) has ro wo exc inc,
  field_width wo -> (forall p mf mt ls e p', pr p mf mt ls = (Err e, p') -> is_parser_exception e = true) ->
  forall p lines d, split_sections ro lines = Ok d -> exists out p', parse_tape pr has ro wo true exc inc p lines = (Ok out, p').
Proof. intros P D. exact parse_nofail. Qed.

(** A file that was cut short between two lines is never accepted (the lines cut off are not
    all blank): crash of the program that wrote it, full disk, interrupted download. *)
Theorem C64_cut : forall ro pre post d,
  r_send ro = false -> split_sections ro (pre ++ post) = Ok d -> (exists l, In l post /\ ~ blank l) ->
  ((exists l, In l pre /\ ~ blank l) -> split_sections ro pre = Err UnexpectedEndOfInputError) /\
  (Forall blank pre -> split_sections ro pre = Err IndexError).
Proof. exact cut_lines. Qed.

(** As above for parsers: neither nofail nor a selection of sections hides it. *)
Theorem C64_cut_parse : forall (P D : Type) (pr : P -> Z -> Z -> list str -> result D * P) has ro wo nofail exc inc p pre post d,
  r_send ro = false -> split_sections ro (pre ++ post) = Ok d -> (exists l, In l post /\ ~ blank l) -> (exists l, In l pre /\ ~ blank l) ->
  parse_tape pr has ro wo nofail exc inc p pre = (Err UnexpectedEndOfInputError, p).
Proof. intros P D pr has ro wo nofail exc inc p pre post d R H B A. unfold parse_tape. now rewrite (proj1 (cut_lines ro pre post d R H B) A). Qed.

(** A file cut within a line: it can only be accepted if the cut is in the TEND record
    (the only record with a negative MAT) or behind it. *)
Theorem C64_cut_line : forall ro pre l' l'' post d d',
  r_send ro = false -> split_sections ro (pre ++ (l' ++ l'') :: post) = Ok d -> (exists l, In l pre /\ ~ blank l) ->
  split_sections ro (pre ++ [l']) = Ok d' ->
  Forall blank ((l' ++ l'') :: post) \/ In "-"%char (slice (6 * r_width ro) (6 * r_width ro + 4) (l' ++ l'')).
Proof. exact cut_line. Qed.

(** the file of C04_example cut behind any of its lines *)
Example C64_case :
  (exists d, split_sections default_ro ex_tape = Ok d) /\
  map (fun n => split_sections default_ro (firstn n ex_tape)) (seq 0 12) = Err IndexError :: repeat (Err UnexpectedEndOfInputError) 11 /\
  split_sections default_ro (firstn 11 ex_tape ++ [firstn 70 (nth 11 ex_tape [])]) = split_sections default_ro ex_tape /\
  has_numbers 11 ex_tape.
Proof.
  assert (X : (exists d, split_sections default_ro ex_tape = Ok d) /\
    map (fun n => split_sections default_ro (firstn n ex_tape)) (seq 0 12) = Err IndexError :: repeat (Err UnexpectedEndOfInputError) 11 /\
    split_sections default_ro (firstn 11 ex_tape ++ [firstn 70 (nth 11 ex_tape [])]) = split_sections default_ro ex_tape)
    by (split; [eexists; vm_compute; reflexivity|split; vm_compute; reflexivity]).
  destruct X as (A & B & C). repeat (split; [assumption|]). split.
  - exists (nth 0 ex_tape []). split; [apply nth_In; apply Nat.ltb_lt; vm_compute; reflexivity|]. intros Y. apply blank_iff in Y. revert Y. vm_compute. discriminate.
  - assert (Y : forallb (readable_line default_ro) ex_tape = true) by (vm_compute; reflexivity). exact (readable_lines default_ro ex_tape Y).
Qed.

(** Not all malformed texts are reported by exceptions of the package, even with nofail:
    control columns that are no numbers give ValueError. *)
Theorem C64_columns_refuted : exists lines e,
  (exists l, In l lines /\ ~ blank l) /\ is_parser_exception e = false /\
  forall (P D : Type) (pr : P -> Z -> Z -> list str -> result D * P) has wo nofail exc inc p,
    parse_tape pr has default_ro wo nofail exc inc p lines = (Err e, p).
Proof.
  exists [ex_head; ljust 66 $"text" ++ $" 1x5 3  1"], ValueError. split; [|split; [reflexivity|]].
  - exists ex_head. split; [now left|]. intros Y. apply blank_iff in Y. revert Y. vm_compute. discriminate.
  - intros. unfold parse_tape.
    assert (X : split_sections default_ro [ex_head; ljust 66 $"text" ++ $" 1x5 3  1"] = Err ValueError) by (vm_compute; reflexivity). now rewrite X.
Qed.
(** an empty text gives IndexError *)
Theorem C64_empty_refuted : exists e, is_parser_exception e = false /\
  forall (P D : Type) (pr : P -> Z -> Z -> list str -> result D * P) has ro wo nofail exc inc p,
    parse_tape pr has ro wo nofail exc inc p [] = (Err e, p).
Proof. exists IndexError. split; [reflexivity|]. intros. reflexivity. Qed.
(** With ignore_send_records a file cut short is accepted with fewer sections. *)
Theorem C64_ignore_refuted : exists ro lines n d d',
  r_send ro = true /\ split_sections ro lines = Ok d /\ split_sections ro (firstn n lines) = Ok d' /\
  (exists ls, holds d 33 1 ls) /\ ~ (exists ls, holds d' 33 1 ls).
Proof.
  set (ro := {| r_spaces := r_spaces default_ro; r_blank := r_blank default_ro; r_send := true; r_tpid := r_tpid default_ro; r_width := r_width default_ro; r_preserve := r_preserve default_ro |}).
  destruct (split_sections ro ex_tape) as [d|] eqn:E; [|exfalso; revert E; vm_compute; discriminate].
  destruct (split_sections ro (firstn 6 ex_tape)) as [d'|] eqn:E'; [|exfalso; revert E'; vm_compute; discriminate].
  exists ro, ex_tape, 6%nat, d, d'. split; [reflexivity|]. split; [exact E|]. split; [exact E'|]. vm_compute in E. vm_compute in E'. injection E as <-. injection E' as <-. split.
  - eexists. eexists. split; [right; right; left; reflexivity|left; reflexivity].
  - intros (ls & sub & I & J). repeat destruct I as [I|I]; try discriminate; destruct I.
Qed.

Print Assumptions C64_framing.
Print Assumptions C64_parse.
Print Assumptions C64_nofail.
Print Assumptions C64_cut.
Print Assumptions C64_cut_parse.
Print Assumptions C64_cut_line.
Print Assumptions C64_columns_refuted.
Print Assumptions C64_empty_refuted.
Print Assumptions C64_ignore_refuted.
