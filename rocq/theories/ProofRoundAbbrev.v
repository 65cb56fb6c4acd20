(** C31 for recipes with abbreviations: by C57 they do what the recipes without them do. *)
From Coq Require Import Ascii String ZArith Bool Lia List.
From Verif Require Import PyBase ModelFortran ModelRecords ModelNum ModelRecipe ModelInterp.
From Verif Require Import SpecFields SpecLibm SpecTape SpecInterp SpecRound SpecAbbrev ProofRound9 ProofAbbrev5.
Import ListNotations.
Open Scope Z_scope.

Lemma strict_round_trip :
  forall wo ro blank depth G b b' explain o mf mt d lines c d', depth <> O ->
  unfolded_strictly (then_send b) = Some (then_send b') -> data (abbrs_block (then_send b)) (VDict d) ->
  field_width wo -> r_width ro = w_width wo -> good_schema G -> readable_recipe G (6 * w_width wo) b' = true ->
  conforms wo ro G d -> Z.abs mf <= 2 ^ 53 -> Z.abs mt <= 2 ^ 53 ->
  write_recipe (write_env ro wo blank depth) explain (then_send b) o mf mt d = (Ok (lines, c), d') ->
  in_columns wo lines ->
  forall o' tape, o_all o' = false -> o_fuzzy o' = false -> at_lines lines tape 0 ->
  exists r, parse_recipe (read_env ro wo depth) (then_send b) o' tape = (Ok r, o') /\
    printed_part wo ro G (numbered mf mt d) r /\
    forall e, thinned r (numbered mf mt d) e -> data (abbrs_block (then_send b)) (VDict e) ->
      exists e', write_recipe (write_env ro wo blank depth) explain (then_send b) o mf mt e = (Ok (lines, c), e').
Proof.
  intros wo ro blank depth G b b' explain o mf mt d lines c d' Nd U DD FW RW GG RR CD Mf Mt W IC o' tape Oa Of At.
  destruct (strictly_write (write_env ro wo blank depth) explain _ _ o mf mt d Nd U DD) as [E _].
  rewrite W in E. cbn [fst] in E.
  destruct (write_recipe (write_env ro wo blank depth) explain (then_send b') o mf mt d) as [w1 d1] eqn:W'. cbn [fst] in E. subst w1.
  destruct (round_trip wo ro blank depth G b' explain o mf mt d lines c d1 FW RW GG RR CD Mf Mt W' IC o' tape Oa Of At) as (r & P & PP & Th).
  exists r. split; [|split; [exact PP|]].
  - rewrite <- P. now apply strictly_parse.
  - intros e Te De. destruct (Th e Te) as [e' We].
    destruct (strictly_write (write_env ro wo blank depth) explain _ _ o mf mt e Nd U De) as [E _].
    rewrite We in E. cbn [fst] in E.
    destruct (write_recipe (write_env ro wo blank depth) explain (then_send b) o mf mt e) as [w2 d2]. cbn [fst] in E. subst w2. now exists d2.
Qed.

Lemma reused_round_trip :
  forall wo ro blank depth G b b' explain o mf mt d lines c d', depth <> O ->
  unfolded (then_send b) = Some (then_send b') -> data [] (VDict d) ->
  field_width wo -> r_width ro = w_width wo -> good_schema G -> readable_recipe G (6 * w_width wo) b' = true ->
  conforms wo ro G d -> Z.abs mf <= 2 ^ 53 -> Z.abs mt <= 2 ^ 53 ->
  write_recipe (write_env ro wo blank depth) explain (then_send b) o mf mt d = (Ok (lines, c), d') ->
  in_columns wo lines ->
  forall o' tape, o_all o' = false -> o_fuzzy o' = false -> at_lines lines tape 0 ->
  fst (parse_recipe (read_env ro wo depth) (then_send b) o' tape) = Err AbbreviationNameCollisionError \/
  exists r, parse_recipe (read_env ro wo depth) (then_send b) o' tape = (Ok r, o') /\
    printed_part wo ro G (numbered mf mt d) r /\
    forall e, thinned r (numbered mf mt d) e -> data [] (VDict e) ->
      let w := write_recipe (write_env ro wo blank depth) explain (then_send b) o mf mt e in
      fst w = Ok (lines, c) \/ fst w = Err AbbreviationNameCollisionError.
Proof.
  intros wo ro blank depth G b b' explain o mf mt d lines c d' Nd U DD FW RW GG RR CD Mf Mt W IC o' tape Oa Of At.
  destruct (unfolded_write (write_env ro wo blank depth) explain _ _ o mf mt d Nd U DD) as [[E _]|E]; [|rewrite W in E; discriminate E].
  rewrite W in E. cbn [fst] in E.
  destruct (write_recipe (write_env ro wo blank depth) explain (then_send b') o mf mt d) as [w1 d1] eqn:W'. cbn [fst] in E. subst w1.
  destruct (round_trip wo ro blank depth G b' explain o mf mt d lines c d1 FW RW GG RR CD Mf Mt W' IC o' tape Oa Of At) as (r & P & PP & Th).
  destruct (unfolded_parse (read_env ro wo depth) _ _ o' tape Nd U) as [E|E]; [right|now left].
  exists r. split; [now rewrite E|]. split; [exact PP|]. intros e Te De w. destruct (Th e Te) as [e' We].
  destruct (unfolded_write (write_env ro wo blank depth) explain _ _ o mf mt e Nd U De) as [[E2 _]|E2]; [left|now right].
  rewrite We in E2. exact E2.
Qed.
