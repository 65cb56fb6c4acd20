(** C56: files as a whole. *)
From Coq Require Import Ascii String ZArith Bool List.
From Verif Require Import PyBase PyFloat ModelFortran ModelRecords ModelTape ModelNum ModelRecipe ModelInterp ModelParser.
From Verif Require Import SpecFields SpecTape SpecInterp SpecRound SpecSign.
Import ListNotations.
Open Scope Z_scope.

(** SEND at the end of the recipe; the tape head (MF=0) has none *)
Definition ended (mf : Z) (b : block) : block := if mf =? 0 then b else then_send b.

(** A dictionary that can be written and, according to C31, read back. The recipe is one whose
    fields, conditions and loop bounds can be read from the front (if there are conditionals
    with lookahead, one of their branches is chosen), [G] are the kinds of the variables, and the
    lines have no number wider than its columns. *)
Definition restorable (p : parser) (blank : bool) (o : popts) (mat mf mt : Z) (G : schema) (s : dict) : Prop :=
  let w := (6 * w_width (p_wo p))%nat in
  exists b b' body send c e,
    find_recipe (p_recipes p) mf mt = Some (ended mf b) /\ (b' = b \/ b' = closed b) /\ no_send b = true /\
    good_schema G /\ readable_recipe G w b' = true /\ conforms (p_wo p) (p_ro p) G s /\
    clean (VDict s) /\ one_mat s /\ dget (KStr $"MAT") s = Some (vint mat) /\
    ctrl_fits {| MAT := mat; MF := mf; MT := mt |} /\
    write_recipe (write_env (p_ro p) (p_wo p) blank (p_depth p)) (p_explain p) (ended mf b') o mf mt s = (Ok (body ++ send, c), e) /\
    body <> [] /\ Forall (fun l : str => length l = (w + 9)%nat) body /\ length send = (if (mf =? 0)%Z then 0 else 1)%nat.

(** [r] is [s] as printed, and everything that was written is in it: the lines are also those
    of every dictionary that lacks values [r] lacks *)
Definition comes_back (p : parser) (blank : bool) (o : popts) (mf mt : Z) (s r : dict) : Prop :=
  exists G, printed_part (p_wo p) (p_ro p) G (SpecRound.numbered mf mt s) r /\
    forall e, clean (VDict e) -> one_mat e -> thinned r (SpecRound.numbered mf mt s) e -> write_one p blank o mf mt e = write_one p blank o mf mt s.

(** A file: a tape head of one line, and sections of one material, each a dictionary or, where there is no
    recipe, a list of lines *)
Definition whole_file (p : parser) (blank : bool) (o : popts) (d : mfdic (section dict)) : Prop :=
  is_dict2 d /\ (forall mf sub, In (mf, sub) d -> sub <> [] /\ 0 <= mf) /\
  (exists h hmat G, holds d 0 0 (Parsed h) /\ restorable p blank o hmat 0 0 G h /\
     exists l c, write_one p blank o 0 0 h = Ok ([l], c)) /\
  (forall mt x, holds d 0 mt x -> mt = 0) /\
  (exists mf mt x, mf <> 0 /\ holds d mf mt x) /\
  exists mat, mat <> 0 /\ forall mf mt x, mf <> 0 -> holds d mf mt x -> mt <> 0 /\
    match x with
    | Parsed s => exists G, restorable p blank o mat mf mt G s
    | Raw ls => find_recipe (p_recipes p) mf mt = None /\ ls <> [] /\
        Forall (fun l => carries (w_width (p_wo p)) l mat mf mt /\ (6 * w_width (p_wo p) + 9 <= length l)%nat) ls
    end.

(** the section that is read for a section that was written *)
Definition section_back (p : parser) (blank : bool) (o : popts) (mf mt : Z) (x y : section dict) : Prop :=
  match x with
  | Parsed s => exists r, y = Parsed r /\ comes_back p blank o mf mt s r
  | Raw ls => exists ls', y = Raw ls' /\ Forall2 (same_columns (w_width (p_wo p))) ls ls'
  end.

(** two files with the same sections in the same order, related one by one *)
Definition sectionwise (R : Z -> Z -> section dict -> section dict -> Prop) (d d2 : mfdic (section dict)) : Prop :=
  Forall2 (fun a b => fst a = fst b /\
    Forall2 (fun u v => fst u = fst v /\ R (fst a) (fst u) (snd u) (snd v)) (snd a) (snd b)) d d2.
(** [y] is [x], or [x] without some values that the section read back, in [d'], lacks *)
Definition thinned_section (d' : mfdic (section dict)) (mf mt : Z) (x y : section dict) : Prop :=
  y = x \/ exists s e r, x = Parsed s /\ y = Parsed e /\ holds d' mf mt (Parsed r) /\
    clean (VDict e) /\ one_mat e /\ thinned r (SpecRound.numbered mf mt s) e.
