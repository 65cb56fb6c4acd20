(** Model of the record readers and writers of interpreter/endf_utils.py (lines 30-439).
    The option [with_ctrl] is always True (the only value the parser uses). *)
From Coq Require Import Ascii String ZArith Bool Lia List.
From Coq Require Import Floats.SpecFloat.
From Verif Require Import PyBase PyFloat ModelFortran.
Import ListNotations.
Open Scope Z_scope.

(** the entries MAT, MF, MT of a record dictionary *)
Record ctrl : Type := { MAT : Z; MF : Z; MT : Z }.

(** [lines[ofs]] *)
Definition get_line (lines : list str) (ofs : nat) : result str :=
  match nth_error lines ofs with Some l => Ok l | None => Err IndexError end.

(** [int(s.strip()) if s.strip() != "" else 0]; ValueError otherwise. *)
Definition ctrl_int (s : str) : result Z :=
  let t := strip s in
  match t with
  | [] => Ok 0
  | _ => match int_of_str t with Some v => Ok v | None => Err ValueError end
  end.

(** endf_utils.py 30-50 with nofail=False *)
Definition read_ctrl (ro : ropts) (line : str) : result ctrl :=
  let ofs := (6 * r_width ro)%nat in
  do mat <- ctrl_int (slice ofs (ofs + 4) line);
  do mf <- ctrl_int (slice (ofs + 4) (ofs + 6) line);
  do mt <- ctrl_int (slice (ofs + 6) (ofs + 9) line);
  Ok {| MAT := mat; MF := mf; MT := mt |}.

(** endf_utils.py 53-54 *)
Definition write_ctrl (c : ctrl) : str :=
  rjust 4 (str_of_Z (MAT c)) ++ rjust 2 (str_of_Z (MF c)) ++ rjust 3 (str_of_Z (MT c)).

(** endf_utils.py 71-79 *)
Definition read_text (ro : ropts) (lines : list str) (ofs : nat)
  : result (str * ctrl * nat) :=
  do line <- get_line lines ofs;
  do c <- read_ctrl ro line;
  Ok (slice 0 (r_width ro * 6) line, c, S ofs).

(** endf_utils.py 82-86 *)
Definition write_text (wo : wopts) (hl : str) (c : ctrl) : list str :=
  [ljust (w_width wo * 6) hl ++ write_ctrl c].

(** fields of a DIR record *)
Record dirrec : Type := { D_L1 : Z; D_L2 : Z; D_N1 : Z; D_N2 : Z }.

(** [i]-th field of a line *)
Definition field (w i : nat) (line : str) : str := slice (i * w) (S i * w) line.

(** endf_utils.py 89-101 *)
Definition read_dir (ro : ropts) (lines : list str) (ofs : nat)
  : result (dirrec * ctrl * nat) :=
  let w := r_width ro in
  do line <- get_line lines ofs;
  do l1 <- read_fort_int (field w 2 line);
  do l2 <- read_fort_int (field w 3 line);
  do n1 <- read_fort_int (field w 4 line);
  do n2 <- read_fort_int (field w 5 line);
  do c <- read_ctrl ro line;
  Ok ({| D_L1 := l1; D_L2 := l2; D_N1 := n1; D_N2 := n2 |}, c, S ofs).

(** [str(n).rjust(width)] *)
Definition int_field (w : nat) (n : Z) : str := rjust w (str_of_Z n).

(** endf_utils.py 104-113; the fields are ints *)
Definition write_dir (wo : wopts) (r : dirrec) (c : ctrl) : list str :=
  let w := w_width wo in
  [spaces w ++ spaces w ++ int_field w (D_L1 r) ++ int_field w (D_L2 r)
   ++ int_field w (D_N1 r) ++ int_field w (D_N2 r) ++ write_ctrl c].

(** fields of an INTG record *)
Record intgrec : Type := { G_II : Z; G_JJ : Z; G_KIJ : list Z }.

(** [range(start, 65, step)] *)
Fixpoint range_step (fuel : nat) (start stop step : nat) : list nat :=
  match fuel with
  | O => []
  | S f => if (start <? stop)%nat then start :: range_step f (start + step) stop step else []
  end.

(** endf_utils.py 116-134; [ndigit] is an int here *)
Definition intg_positions (ndigit : nat) : list nat :=
  if (ndigit <=? 5)%nat then range_step 65 11 65 (ndigit + 1) else range_step 65 10 65 (ndigit + 1).
Definition read_intg (ro : ropts) (ndigit : Z) (lines : list str) (ofs : nat)
  : result (intgrec * ctrl * nat) :=
  if (ndigit <? 2) || (6 <? ndigit) then Err InvalidIntegerError else
  let nd := Z.to_nat ndigit in
  do line <- get_line lines ofs;
  do ii <- read_fort_int (slice 0 5 line);
  do jj <- read_fort_int (slice 5 10 line);
  do kij <- mapM (fun i => read_fort_int (slice i (i + nd + 1) line)) (intg_positions nd);
  do c <- read_ctrl ro line;
  Ok ({| G_II := ii; G_JJ := jj; G_KIJ := kij |}, c, S ofs).

(** endf_utils.py 137-146; [str.rjust] with a negative width is the identity *)
Definition write_intg (wo : wopts) (ndigit : Z) (r : intgrec) (c : ctrl) : list str :=
  let spacer := if ndigit =? 6 then [] else $" " in
  let kij := concat (map (fun k => rjust (Z.to_nat (ndigit + 1)) (str_of_Z k)) (G_KIJ r)) in
  [ljust (w_width wo * 6)
     (rjust 5 (str_of_Z (G_II r)) ++ rjust 5 (str_of_Z (G_JJ r)) ++ spacer ++ kij)
   ++ write_ctrl c].

(** fields of a CONT (HEAD) record *)
Record contrec : Type := {
  C1 : num; C2 : num; L1 : num; L2 : num; N1 : num; N2 : num
}.

(** endf_utils.py 149-163 (read_head is the same function, line 269) *)
Definition read_cont (ro : ropts) (lines : list str) (ofs : nat)
  : result (contrec * ctrl * nat) :=
  let w := r_width ro in
  do line <- get_line lines ofs;
  do c1 <- read_fort_float ro (field w 0 line);
  do c2 <- read_fort_float ro (field w 1 line);
  do l1 <- read_fort_int (field w 2 line);
  do l2 <- read_fort_int (field w 3 line);
  do n1 <- read_fort_int (field w 4 line);
  do n2 <- read_fort_int (field w 5 line);
  do c <- read_ctrl ro line;
  Ok ({| C1 := c1; C2 := c2; L1 := NInt l1; L2 := NInt l2; N1 := NInt n1; N2 := NInt n2 |},
      c, S ofs).

(** endf_utils.py 168-179: the value of an integer slot. Simplification: for nan and
    the infinities, where [int()] raises ValueError/OverflowError, likewise. *)
Definition int_slot (wo : wopts) (v : num) : result Z :=
  match v with
  | NInt z => Ok z
  | NFlt (S754_infinity _) | NEndf (S754_infinity _) _ => Err OverflowError
  | NFlt S754_nan | NEndf S754_nan _ => Err ValueError
  | _ =>
      let intval := num_trunc v in
      if negb (num_num v =? intval * num_den v) || w_strict wo
      then Err InvalidIntegerError else Ok intval
  end.

(** endf_utils.py 166-187 (write_head is the same function, line 268) *)
Definition write_cont (wo : wopts) (r : contrec) (c : ctrl) : result (list str) :=
  let w := w_width wo in
  do l1 <- int_slot wo (L1 r);
  do l2 <- int_slot wo (L2 r);
  do n1 <- int_slot wo (N1 r);
  do n2 <- int_slot wo (N2 r);
  do c1 <- float2fortstr wo (C1 r);
  do c2 <- float2fortstr wo (C2 r);
  Ok [c1 ++ c2 ++ int_field w l1 ++ int_field w l2 ++ int_field w n1 ++ int_field w n2
      ++ write_ctrl c].

(** endf_utils.py 190-200, concatenated *)
Definition zerostr_fields (wo : wopts) (zero_as_blank : bool) : result str :=
  let w := w_width wo in
  do zerostr <- (if zero_as_blank then Ok (spaces w) else float2fortstr wo (NInt 0));
  let zerostr2 := if zero_as_blank then spaces w else rjust w $"0" in
  Ok (zerostr ++ zerostr ++ zerostr2 ++ zerostr2 ++ zerostr2 ++ zerostr2).

(** [v != 0] *)
Definition num_nonzero (v : num) : bool :=
  match v with
  | NFlt f | NEndf f _ => match f with S754_zero _ => false | _ => true end
  | NInt z => negb (z =? 0)
  end.

(** endf_utils.py 203-215 *)
Definition read_send (ro : ropts) (lines : list str) (ofs : nat)
  : result (contrec * ctrl * nat) :=
  do (r, c, ofs') <- read_cont ro lines ofs;
  if num_nonzero (C1 r) || num_nonzero (C2 r) || num_nonzero (L1 r) || num_nonzero (L2 r)
     || num_nonzero (N1 r) || num_nonzero (N2 r) || negb (MT c =? 0)
  then Err NotSectionEndError
  else Ok (r, c, ofs').

(** endf_utils.py 218-262: write_send, write_fend, write_mend, write_tend *)
Definition write_end (wo : wopts) (zero_as_blank : bool) (c : ctrl) (ns : str)
  : result (list str) :=
  do z <- zerostr_fields wo zero_as_blank;
  Ok [z ++ write_ctrl c ++ (if w_linenum wo then ns else [])].
Definition write_send (wo : wopts) (zero_as_blank : bool) (c : ctrl) : result (list str) :=
  write_end wo zero_as_blank {| MAT := MAT c; MF := MF c; MT := 0 |} $"99999".
Definition write_fend (wo : wopts) (zero_as_blank : bool) (c : ctrl) : result (list str) :=
  write_end wo zero_as_blank {| MAT := MAT c; MF := 0; MT := 0 |} $"    0".
Definition write_mend (wo : wopts) (zero_as_blank : bool) : result (list str) :=
  write_end wo zero_as_blank {| MAT := 0; MF := 0; MT := 0 |} $"    0".
Definition write_tend (wo : wopts) (zero_as_blank : bool) : result (list str) :=
  write_end wo zero_as_blank {| MAT := -1; MF := 0; MT := 0 |} $"    0".

(** endf_utils.py 397-404: the loop; [fuel] only has to be at least [num] *)
Fixpoint read_numbers_loop (ro : ropts) (fuel : nat) (lines : list str) (num : Z) (ofs : nat)
  : result (list ModelFortran.num * nat) :=
  match fuel with
  | O => Ok ([], ofs)
  | S f =>
      if num <=? 0 then Ok ([], ofs) else
      do l <- get_line lines ofs;
      do vals <- read_fort_floats ro l (Z.to_nat (Z.min 6 num));
      do (rest, ofs') <- read_numbers_loop ro f lines (num - 6) (S ofs);
      Ok (vals ++ rest, ofs')
  end.

(** [int(v)] in endf_utils.py 407 *)
Definition to_int1 (v : num) : result num :=
  match v with
  | NFlt (S754_infinity _) | NEndf (S754_infinity _) _ => Err OverflowError
  | NFlt S754_nan | NEndf S754_nan _ => Err ValueError
  | _ => Ok (NInt (num_trunc v))
  end.

(** endf_utils.py 397-411 *)
Definition read_endf_numbers (ro : ropts) (to_int : bool) (lines : list str) (num : Z) (ofs : nat)
  : result (list ModelFortran.num * nat) :=
  do (vals, ofs') <- read_numbers_loop ro (Z.to_nat num) lines num ofs;
  if to_int then
    match mapM to_int1 vals with
    | Ok ints => Ok (ints, ofs')
    | Err ValueError => Ok (vals, ofs')
    | Err e => Err e
    end
  else Ok (vals, ofs').

(** chunks of six: [vals[i:min(i+6,len)] for i in range(0, len, 6)]; [fuel >= length] *)
Fixpoint chunks6 {A} (fuel : nat) (vals : list A) : list (list A) :=
  match fuel with
  | O => []
  | S f => match vals with
           | [] => []
           | _ => firstn 6 vals :: chunks6 f (skipn 6 vals)
           end
  end.

(** [lines[-1] = lines[-1].ljust(width * 6)], endf_utils.py 423 *)
Fixpoint ljust_last (n : nat) (lines : list str) : result (list str) :=
  match lines with
  | [] => Err IndexError
  | [l] => Ok [ljust n l]
  | l :: rest => do r <- ljust_last n rest; Ok (l :: r)
  end.

(** endf_utils.py 414-424 with to_int=False, respectively to_int=True for ints *)
Definition write_endf_floats (wo : wopts) (vals : list num) : result (list str) :=
  do lines <- mapM (write_fort_floats wo) (chunks6 (length vals) vals);
  ljust_last (w_width wo * 6) lines.
Definition write_endf_ints (wo : wopts) (vals : list Z) : result (list str) :=
  ljust_last (w_width wo * 6)
    (map (fun ch => concat (map (int_field (w_width wo)) ch)) (chunks6 (length vals) vals)).

(** endf_utils.py 272-280 *)
Definition num_as_Z (v : num) : Z := match v with NInt z => z | _ => num_trunc v end.
Definition read_list (ro : ropts) (lines : list str) (ofs : nat)
  : result (contrec * ctrl * list num * nat) :=
  do (r, c, ofs1) <- read_cont ro lines ofs;
  let npl := num_as_Z (N1 r) in
  if npl =? 0 then Ok (r, c, [], ofs1) else
  do (vals, ofs2) <- read_endf_numbers ro false lines npl ofs1;
  Ok (r, c, vals, ofs2).

(** comparison [NPL < num_vals], [NPL > num_vals] of a number with an int *)
Definition num_lt_Z (v : num) (z : Z) : bool := num_num v <? z * num_den v.
Definition Z_lt_num (z : Z) (v : num) : bool := z * num_den v <? num_num v.

(** endf_utils.py 283-305. Simplification: a float NPL that is not an integer is
    caught by the comparisons or by write_cont. *)
Definition write_list (wo : wopts) (r : contrec) (c : ctrl) (vals : list num)
  : result (list str) :=
  let n := Z.of_nat (length vals) in
  if num_lt_Z (N1 r) n then Err UnconsumedListElementsError
  else if Z_lt_num n (N1 r) then Err MoreListElementsExpectedError
  else
    do lines <- write_cont wo r c;
    do body <-
      (if 0 <? n then
         let pad := if n mod 6 =? 0 then [] else repeat (NFlt (S754_zero false)) (Z.to_nat (6 - n mod 6)) in
         write_endf_floats wo (vals ++ pad)
       else Ok []);
    Ok (lines ++ map (fun t : str => t ++ write_ctrl c) body).

(** [vals[::2]], [vals[1::2]] and the inverse interleaving *)
Fixpoint evens {A} (l : list A) : list A :=
  match l with
  | [] => []
  | x :: r => x :: odds r
  end
with odds {A} (l : list A) : list A :=
  match l with
  | [] => []
  | _ :: r => evens r
  end.
Fixpoint interleave {A} (a b : list A) : list A :=
  match a, b with
  | x :: a', y :: b' => x :: y :: interleave a' b'
  | _, _ => []
  end.

(** endf_utils.py 308-320; result: record, control, NBT, INT *)
Definition read_tab2 (ro : ropts) (lines : list str) (ofs : nat)
  : result (contrec * ctrl * (list num * list num) * nat) :=
  do startline <- get_line lines ofs;
  do (r, _, ofs1) <- read_cont ro lines ofs;
  do (vals, ofs2) <- read_endf_numbers ro true lines (2 * num_as_Z (N1 r)) ofs1;
  do c <- read_ctrl ro startline;
  Ok (r, c, (evens vals, odds vals), ofs2).

Definition set_N1 (r : contrec) (z : Z) : contrec :=
  {| C1 := C1 r; C2 := C2 r; L1 := L1 r; L2 := L2 r; N1 := NInt z; N2 := N2 r |}.
Definition set_N2 (r : contrec) (z : Z) : contrec :=
  {| C1 := C1 r; C2 := C2 r; L1 := L1 r; L2 := L2 r; N1 := N1 r; N2 := NInt z |}.

(** endf_utils.py 323-339 *)
Definition write_tab2 (wo : wopts) (r : contrec) (c : ctrl) (nbt int : list Z)
  : result (list str) :=
  if negb (Nat.eqb (length nbt) (length int)) then Err ValueError else
  do lines <- write_cont wo (set_N1 r (Z.of_nat (length nbt))) c;
  do tbl <- write_endf_ints wo (interleave nbt int);
  Ok (lines ++ map (fun t : str => t ++ write_ctrl c) tbl).

(** endf_utils.py 373-380 *)
Definition read_tab1_body_lines (ro : ropts) (lines : list str) (ofs : nat) (nr np : Z)
  : result ((list num * list num * list num * list num) * nat) :=
  do (ivals, ofs1) <- read_endf_numbers ro true lines (2 * nr) ofs;
  do (fvals, ofs2) <- read_endf_numbers ro false lines (2 * np) ofs1;
  Ok ((evens ivals, odds ivals, evens fvals, odds fvals), ofs2).

(** endf_utils.py 342-352 *)
Definition read_tab1 (ro : ropts) (lines : list str) (ofs : nat)
  : result (contrec * ctrl * (list num * list num * list num * list num) * nat) :=
  do startline <- get_line lines ofs;
  do (r, _, ofs1) <- read_cont ro lines ofs;
  do (tbl, ofs2) <- read_tab1_body_lines ro lines ofs1 (num_as_Z (N1 r)) (num_as_Z (N2 r));
  do c <- read_ctrl ro startline;
  Ok (r, c, tbl, ofs2).

(** endf_utils.py 383-394 *)
Definition write_tab1_body_lines (wo : wopts) (nbt int : list Z) (xs ys : list num)
  : result (list str) :=
  if negb (Nat.eqb (length nbt) (length int)) then Err AssertionError else
  if negb (Nat.eqb (length xs) (length ys)) then Err AssertionError else
  do l1 <- write_endf_ints wo (interleave nbt int);
  do l2 <- write_endf_floats wo (interleave xs ys);
  Ok (l1 ++ l2).

(** endf_utils.py 355-370 *)
Definition write_tab1 (wo : wopts) (r : contrec) (c : ctrl) (nbt int : list Z) (xs ys : list num)
  : result (list str) :=
  do lines <- write_cont wo (set_N2 (set_N1 r (Z.of_nat (length nbt))) (Z.of_nat (length xs))) c;
  do tbl <- write_tab1_body_lines wo nbt int xs ys;
  Ok (lines ++ map (fun t : str => t ++ write_ctrl c) tbl).

(** endf_utils.py 427-439; recursion over the lines from [ofs] on *)
Fixpoint skip_blank_from (rest : list str) (ofs : nat) : result nat :=
  match rest with
  | [] => Err UnexpectedEndOfInputError
  | l :: r => if is_blank l then skip_blank_from r (S ofs) else Ok ofs
  end.
Definition skip_blank_lines (lines : list str) (ofs : nat) : result nat :=
  skip_blank_from (skipn ofs lines) ofs.

(** endf_utils.py 442-455 *)
Fixpoint number_lines (ofs i : Z) (lines : list str) : list str :=
  match lines with
  | [] => []
  | l :: r => (l ++ rjust 5 (str_of_Z (i mod 99999 + ofs))) :: number_lines ofs (i + 1) r
  end.
Definition ctrl_ropts (w : nat) : ropts :=
  {| r_spaces := true; r_blank := false; r_send := false; r_tpid := false;
     r_width := w; r_preserve := false |}.
Definition add_linenumbers_to_section (wo : wopts) (lines : list str) : result (list str) :=
  do l0 <- get_line lines 0;
  do c <- read_ctrl (ctrl_ropts (w_width wo)) l0;
  let cut := map (firstn (w_width wo * 6 + 9)) lines in
  if negb (w_linenum wo) then Ok cut
  else Ok (number_lines (if MF c =? 0 then 0 else 1) 0 cut).
