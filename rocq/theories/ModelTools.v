(** Model of the user tools: compare_objects (utils/debugging_utils.py 18-223), the tools of
    utils/endf6_plumbing.py and utils/user_tools.py, and the log of records
    (interpreter/logging_utils.py 75-132). *)
From Coq Require Import Ascii String ZArith Bool Lia List.
From Coq Require Import Floats.SpecFloat.
From Verif Require Import PyBase PyFloat ModelFortran ModelRecords ModelTape ModelInterp ModelPath.
Import ListNotations.
Open Scope Z_scope.

(** ** Sorting of keys *)

Fixpoint str_leb (a b : str) : bool :=
  match a, b with
  | [], _ => true
  | _ :: _, [] => false
  | x :: a', y :: b' =>
      if (code x <? code y)%nat then true else if (code y <? code x)%nat then false else str_leb a' b'
  end.
Fixpoint insert_by {A} (leb : A -> A -> bool) (x : A) (l : list A) : list A :=
  match l with
  | [] => [x]
  | y :: r => if leb x y then x :: l else y :: insert_by leb x r
  end.
(** [sorted(l)] *)
Definition sort_by {A} (leb : A -> A -> bool) (l : list A) : list A := fold_right (insert_by leb) [] l.

Definition str_keys (l : list key) : list str :=
  flat_map (fun k => match k with KInt _ => [] | KStr s => [s] end) l.
Definition num_keys (l : list key) : list Z :=
  flat_map (fun k => match k with KInt z => [z] | KStr _ => [] end) l.

(** ** compare_objects *)

(** Simplification: rstrcut is not negative, the tolerances are floats. *)
Record cmpopts : Type := {
  c_atol : spec_float; c_rtol : spec_float; c_strlen : bool; c_rstrip : bool;
  c_cut : option nat; c_fail : bool
}.
(** the messages, by their kind; with the path shown *)
Inductive diffkind : Type := DType | DOnly1 | DOnly2 | DStrLen | DStr | DLen | DValue.
Definition diff : Type := str * diffkind.
Definition diff_exn (k : diffkind) : exn :=
  match k with DType => TypeError | DOnly1 | DOnly2 => IndexError | _ => ValueError end.

(** a computation that appends to diff_log *)
Definition C (A : Type) : Type := list diff -> result A * list diff.
Definition cret {A} (x : A) : C A := fun log => (Ok x, log).
Definition cbind {A B} (m : C A) (f : A -> C B) : C B := fun log =>
  match m log with (Ok x, log') => f x log' | (Err e, log') => (Err e, log') end.

(** debugging_utils.py 118-125; the value is the new found_diff *)
Definition treat_diff (o : cmpopts) (path : str) (k : diffkind) : C bool := fun log =>
  if c_fail o then (Err (diff_exn k), log) else (Ok true, log ++ [(path, k)]).

(** math_utils.py 95-121 on floats *)
Definition float_close (o : cmpopts) (x y : spec_float) : bool :=
  SFleb (sf_abs (SFsub 53 1024 x y)) (SFadd 53 1024 (c_atol o) (SFmul 53 1024 (c_rtol o) (sf_abs y))).

(** [type(obj)], after 127-130. Simplification: expressions and the other objects used while
    a recipe runs do not occur in data; they differ from everything. *)
Inductive pytype : Type := TInt | TFloat | TStr | TList | TDict | TNone | TOther.
Definition type_of (v : val) : pytype :=
  match v with
  | VNum (NInt _) => TInt
  | VNum _ => TFloat
  | VStr _ => TStr
  | VList _ => TList
  | VDict _ => TDict
  | VNone => TNone
  | _ => TOther
  end.
Definition type_eqb (a b : pytype) : bool :=
  match a, b with
  | TInt, TInt | TFloat, TFloat | TStr, TStr | TList, TList | TDict, TDict | TNone, TNone => true
  | _, _ => false
  end.

Definition float_of (v : num) : spec_float := match v with NInt _ => S754_zero false | NFlt f | NEndf f _ => f end.
(** 18-26 for numbers of the same type *)
Definition smart_is_equal (o : cmpopts) (x y : num) : bool :=
  match x, y with
  | NInt a, NInt b => a =? b
  | _, _ => float_close o (float_of x) (float_of y)
  end.

(** 174-179 *)
Definition cut_text (o : cmpopts) (s : str) : str :=
  let s1 := if c_rstrip o then rstrip s else s in
  match c_cut o with Some n => firstn n s1 | None => s1 end.

Definition has_key (k : key) (d : dict) : bool := match dget k d with Some _ => true | None => false end.
Definition sorted_keys (l : list key) : list key :=
  map KStr (sort_by str_leb (str_keys l)) ++ map KInt (sort_by Z.leb (num_keys l)).

Fixpoint kget {A} (k : key) (l : list (key * A)) : option A :=
  match l with
  | [] => None
  | (k', v) :: r => if key_eqb k k' then Some v else kget k r
  end.

(** 158-171: the comparison of the entries of the first dictionary as functions *)
Fixpoint cmp_keys (recs : list (key * (str -> val -> C bool))) (d2 : dict) (path : str) (keys : list key) (found : bool) : C bool :=
  match keys with
  | [] => cret found
  | k :: r =>
      match kget k recs, dget k d2 with
      | Some f, Some y =>
          cbind (f (path ++ $"/" ++ str_of_key k) y) (fun ret => cmp_keys recs d2 path r (found || negb ret))
      | _, _ => cmp_keys recs d2 path r found
      end
  end.
(** 202-215 *)
Fixpoint cmp_elements (recs : list (str -> val -> C bool)) (l2 : list val) (path : str) (i : Z) (found : bool) : C bool :=
  match recs, l2 with
  | f :: recs', y :: l2' =>
      cbind (f (path ++ $"[" ++ str_of_Z i ++ $"]") y) (fun ret => cmp_elements recs' l2' path (i + 1) (found || negb ret))
  | _, _ => cret found
  end.
Definition cwhen (b : bool) (m : C bool) (found : bool) : C bool := if b then m else cret found.

(** 101-223; the value is [not found_diff] *)
Fixpoint compare_at (o : cmpopts) (a : val) (path : str) (b : val) {struct a} : C bool :=
  cbind
    (if negb (type_eqb (type_of a) (type_of b)) then treat_diff o path DType
     else
       match a, b with
       | VDict d1, VDict d2 =>
           let only1 := filter (fun k => negb (has_key k d2)) (map fst d1) in
           let only2 := filter (fun k => negb (has_key k d1)) (map fst d2) in
           let common := sorted_keys (filter (fun k => has_key k d2) (map fst d1)) in
           cbind (cwhen (negb (Nat.eqb (length only1) 0)) (treat_diff o path DOnly1) false) (fun f1 =>
           cbind (cwhen (negb (Nat.eqb (length only2) 0)) (treat_diff o path DOnly2) f1) (fun f2 =>
           cmp_keys (map (fun kv => (fst kv, compare_at o (snd kv))) d1) d2 path common f2))
       | VStr s, VStr t =>
           let s1 := cut_text o s in
           let t1 := cut_text o t in
           if c_strlen o then cwhen (negb (Nat.eqb (length s1) (length t1))) (treat_diff o path DStrLen) false
           else cwhen (negb (str_eqb s1 t1)) (treat_diff o path DStr) false
       | VList l1, VList l2 =>
           cbind (cwhen (negb (Nat.eqb (length l1) (length l2))) (treat_diff o path DLen) false) (fun f1 =>
           cmp_elements (map (compare_at o) l1) l2 path 0 f1)
       | VNum x, VNum y => cwhen (negb (smart_is_equal o x y)) (treat_diff o path DValue) false
       | _, _ => cret false
       end)
    (fun found => cret (negb found)).
(** 29-98 for dictionaries and lists *)
Definition compare_objects (o : cmpopts) (a b : val) : result bool * list diff := compare_at o a [] b [].

(** ** The log of records *)

(** logging_utils.py 75-112. dump_state hands out the list [buffer] itself, and load_state puts
    the same list back: a saved state is the rest of the attributes. *)
Record ring {A : Type} : Type := { rb_cap : Z; rb_buf : list (option A); rb_tail : Z; rb_num : Z }.
Arguments ring : clear implicits.
Record saved : Type := { sv_cap : Z; sv_tail : Z; sv_num : Z }.

Definition ring_new {A} (cap : Z) : ring A :=
  {| rb_cap := cap; rb_buf := repeat None (Z.to_nat cap); rb_tail := -1; rb_num := 0 |}.
Definition enqueue {A} (x : A) (r : ring A) : ring A :=
  let t := (rb_tail r + 1) mod rb_cap r in
  {| rb_cap := rb_cap r; rb_buf := list_upd (rb_buf r) (Z.to_nat t) (Some x); rb_tail := t; rb_num := rb_num r + 1 |}.
Definition get_queue {A} (r : ring A) : list (option A) :=
  let n := Z.to_nat (rb_tail r + 1) in
  if rb_cap r <? rb_num r then skipn n (rb_buf r) ++ firstn n (rb_buf r) else firstn n (rb_buf r).
Definition dump_state {A} (r : ring A) : saved := {| sv_cap := rb_cap r; sv_tail := rb_tail r; sv_num := rb_num r |}.
Definition load_state {A} (s : saved) (r : ring A) : ring A :=
  {| rb_cap := sv_cap s; rb_buf := rb_buf r; rb_tail := sv_tail s; rb_num := sv_num s |}.

(** 130-132: [self.buffer[self.tail]] *)
Definition last_entry {A} (r : ring A) : option A :=
  if rb_tail r <? 0 then nth (Z.to_nat (rb_cap r + rb_tail r)) (rb_buf r) None else nth (Z.to_nat (rb_tail r)) (rb_buf r) None.

(** ** Descriptions *)

(** the line boundaries of str.splitlines among the 8-bit characters *)
Definition is_break (c : ascii) : bool :=
  let n := code c in
  ((10 <=? n)%nat && (n <=? 13)%nat) || ((28 <=? n)%nat && (n <=? 30)%nat) || (n =? 133)%nat.
Definition cr : ascii := ascii_of_nat 13.
Definition lf : ascii := ascii_of_nat 10.
(** [s.splitlines()]; [cur]: the characters of the current line, last first *)
Fixpoint split_lines (s : str) (cur : str) : list str :=
  match s with
  | [] => match cur with [] => [] | _ => [rev cur] end
  | c :: r =>
      if is_break c then
        rev cur :: (match r with
                    | c2 :: r2 => if chr_eqb c cr && chr_eqb c2 lf then split_lines r2 [] else split_lines r []
                    | [] => []
                    end)
      else split_lines r (c :: cur)
  end.
Definition splitlines (s : str) : list str := split_lines s [].

(** [sorted(d.keys())]: ints and strings cannot be compared *)
Definition sorted_same (l : list key) : result (list key) :=
  match str_keys l, num_keys l with
  | [], zs => Ok (map KInt (sort_by Z.leb zs))
  | ss, [] => Ok (map KStr (sort_by str_leb ss))
  | _, _ => Err TypeError
  end.

Definition lookup (k : key) (d : dict) : result val := match dget k d with Some v => Ok v | None => Err KeyError end.

(** endf6_plumbing.py 61-79; [mt451] is [endf_dic[1][451]] *)
Definition get_description (mt451 : dict) : result str :=
  do v <- lookup (KStr $"DESCRIPTION") mt451;
  match v with
  | VDict d =>
      do ks <- sorted_same (map fst d);
      do ls <- mapM (fun k => do x <- lookup k d; match x with VStr s => Ok s | _ => Err TypeError end) ks;
      Ok (join [lf] ls)
  | _ => Err AttributeError
  end.
(** 97-103 *)
Fixpoint number_from {A} (i : Z) (l : list A) : list (key * A) :=
  match l with [] => [] | x :: r => (KInt i, x) :: number_from (i + 1) r end.
Definition set_description (text : str) (mt451 : dict) : dict :=
  let lines := splitlines text in
  let d1 := dset (KStr $"NWD") (VNum (NInt (Z.of_nat (length lines) + 5))) mt451 in
  dset (KStr $"DESCRIPTION") (VDict (map (fun kx => (fst kx, VStr (ljust 66 (snd kx)))) (number_from 1 lines))) d1.
(** [l[:n]], [l[n:]] *)
Definition slice_at_z {A} (n : Z) (l : list A) : nat :=
  if n <? 0 then Z.to_nat (Z.max 0 (Z.of_nat (length l) + n)) else Z.to_nat n.
(** 106-130 *)
Definition insert_description (text : str) (after_line : Z) (mt451 : dict) : result dict :=
  do descr <- get_description mt451;
  let lines := splitlines descr in
  let k := slice_at_z after_line lines in
  let newlines := firstn k lines ++ splitlines text ++
                  (if after_line <? Z.of_nat (length lines) then skipn k lines else []) in
  Ok (set_description (join [lf] newlines) mt451).

(** ** The directory *)

(** 165-175 *)
Definition count_sections (m : mfdic (list str)) : mfdic Z :=
  map (fun fs => (fst fs, map (fun ts => (fst ts, Z.of_nat (length (snd ts))))
                              (filter (fun ts => negb (fst ts =? 0)) (snd fs))))
      (filter (fun fs => negb (fst fs =? 0)) m).
Definition num_sections (m : mfdic Z) : Z := fold_right (fun fs n => Z.of_nat (length (snd fs)) + n) 0 m.

Definition int_at (k : key) (d : dict) : result Z :=
  do v <- lookup k d; match v with VNum (NInt z) => Ok z | _ => Err TypeError end.
Definition dict_at (k : key) (d : dict) : result dict :=
  do v <- lookup k d; match v with VDict x => Ok x | _ => Err AttributeError end.
Definition key_int (k : key) : result Z := match k with KInt z => Ok z | KStr _ => Err TypeError end.

(** 181-188: the entries of moddic. Simplification: entries that are no ints fail, they
    would be compared as dictionary keys. *)
Definition mod_entries (mt451 : dict) : result (list (Z * Z * Z)) :=
  match dget (KStr $"MFx") mt451 with
  | None => Ok []
  | Some _ =>
      do fs <- dict_at (KStr $"MFx") mt451;
      mapM (fun kv =>
              do mf <- int_at (fst kv) fs;
              do ts <- dict_at (KStr $"MTx") mt451;
              do mt <- int_at (fst kv) ts;
              do ms <- dict_at (KStr $"MOD") mt451;
              do md <- int_at (fst kv) ms;
              Ok (mf, mt, md)) fs
  end.
(** [moddic.get((mf, mt), 0)]: the last entry counts *)
Definition mod_of (l : list (Z * Z * Z)) (mf mt : Z) : Z :=
  match find (fun e => (fst (fst e) =? mf) && (snd (fst e) =? mt)) (rev l) with
  | Some e => snd e
  | None => 0
  end.

Definition column (l : list Z) : val := VDict (map (fun kx => (fst kx, VNum (NInt (snd kx)))) (number_from 1 l)).

(** 161-208; [m]: the result of split_sections. Simplification: NWD is an int. *)
Definition update_directory (m : mfdic (list str)) (mt451 : dict) : result dict :=
  let counts := count_sections m in
  let numsecs := num_sections counts in
  do nwd <- int_at (KStr $"NWD") mt451;
  match zget 1 counts with
  | None => Err KeyError
  | Some secs =>
      let counts' := zset 1 (zset 451 (4 + nwd + numsecs) secs) counts in
      do mods <- mod_entries mt451;
      let entries := flat_map (fun fs => map (fun ts => (fst fs, fst ts, snd ts)) (snd fs)) counts' in
      let put k l d := dset (KStr k) (column l) d in
      let d1 := put $"MFx" (map (fun e => fst (fst e)) entries) mt451 in
      let d2 := put $"MTx" (map (fun e => snd (fst e)) entries) d1 in
      let d3 := put $"NCx" (map snd entries) d2 in
      let d4 := put $"MOD" (map (fun e => mod_of mods (fst (fst e)) (snd (fst e))) entries) d3 in
      Ok (dset (KStr $"NXC") (VNum (NInt numsecs)) d4)
  end.
(** 151-164: the lines are those given or those written *)
Definition update_directory_from (ro : ropts) (lines : list str) (mt451 : dict) : result dict :=
  do m <- split_sections ro lines; update_directory m mt451.

(** ** Sections and variables *)

(** user_tools.py 52-97; a section is a list of lines or a dictionary *)
Definition list_unparsed_sections {D} (d : mfdic (section D)) : list (Z * Z) :=
  flat_map (fun fs => flat_map (fun ts => match snd ts with Raw _ => [(fst fs, fst ts)] | Parsed _ => [] end) (snd fs)) d.
Definition list_parsed_sections {D} (d : mfdic (section D)) : list (Z * Z) :=
  flat_map (fun fs => flat_map (fun ts => match snd ts with Raw _ => [] | Parsed _ => [(fst fs, fst ts)] end) (snd fs)) d.

(** 16-39 *)
Fixpoint locate_in (name : key) (v : val) {struct v} : list (list key) :=
  match v with
  | VDict d =>
      if has_key name d then [[name]]
      else flat_map (fun kv => map (cons (fst kv)) (locate_in name (snd kv))) d
  | _ => []
  end.
Definition locate (d : dict) (name : key) : list (list key) := locate_in name (VDict d).
(** 42-49 *)
Definition get_endf_values (d : dict) (locations : list (list key)) : result (list val) :=
  mapM (fun loc => path_lookup loc (VDict d)) locations.

(** 126-139 *)
Definition int_key (k : key) : option Z := match k with KInt z => Some z | KStr s => int_of_str s end.
Fixpoint int_keys_pass (keys : list key) (d : dict) : result dict :=
  match keys with
  | [] => Ok d
  | k :: r =>
      match int_key k with
      | None => int_keys_pass r d
      | Some z =>
          if has_key (KInt z) d then Err IndexError
          else do v <- lookup k d; int_keys_pass r (ddel k (dset (KInt z) v d))
      end
  end.
(** 100-144. [n]: the nesting that is followed (Python's recursion limit). What is left after
    an exception is not modelled. *)
Fixpoint sanitize (n : nat) (d : dict) : result dict :=
  match n with
  | O => Err RecursionError
  | S n' =>
      do d1 <- int_keys_pass (map fst d) d;
      mapM (fun kv => match snd kv with
                      | VDict x => do y <- sanitize n' x; Ok (fst kv, VDict y)
                      | v => Ok (fst kv, v)
                      end) d1
  end.
