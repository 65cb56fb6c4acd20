(** Specifications for C41, C43-C46. *)
From Coq Require Import Ascii String ZArith Bool List Sorted.
From Coq Require Import Floats.SpecFloat.
From Verif Require Import PyBase PyFloat ModelFortran ModelRecords ModelTape ModelInterp ModelPath ModelTools SpecTape SpecInterp SpecPath.
Import ListNotations.
Open Scope Z_scope.

(** ** C41 *)

(** the strings agree as far as they are compared *)
Definition same_text (o : cmpopts) (s t : str) : Prop :=
  if c_strlen o then length (cut_text o s) = length (cut_text o t) else cut_text o s = cut_text o t.
(** |x - y| <= atol + rtol * |y| in double precision *)
Definition close (o : cmpopts) (x y : spec_float) : Prop :=
  SFleb (sf_abs (SFsub 53 1024 x y)) (SFadd 53 1024 (c_atol o) (SFmul 53 1024 (c_rtol o) (sf_abs y))) = true.

(** floats with and without their original string *)
Inductive is_float : num -> spec_float -> Prop :=
| if_flt f : is_float (NFlt f) f
| if_endf f s : is_float (NEndf f s) f.

Inductive same (o : cmpopts) : val -> val -> Prop :=
| sm_int z : same o (VNum (NInt z)) (VNum (NInt z))
| sm_float a b x y : is_float a x -> is_float b y -> close o x y -> same o (VNum a) (VNum b)
| sm_str s t : same_text o s t -> same o (VStr s) (VStr t)
| sm_none : same o VNone VNone
| sm_list l m : Forall2 (same o) l m -> same o (VList l) (VList m)
| sm_dict d e :
    (forall k, (exists x, dget k d = Some x) <-> (exists y, dget k e = Some y)) ->
    (forall k x y, dget k d = Some x -> dget k e = Some y -> same o x y) ->
    same o (VDict d) (VDict e).

(** data: numbers, strings, None, lists and dictionaries; all floats finite *)
Inductive finite_data : val -> Prop :=
| fd_int z : finite_data (VNum (NInt z))
| fd_float a x : is_float a x -> is_finite x = true -> finite_data (VNum a)
| fd_str s : finite_data (VStr s)
| fd_none : finite_data VNone
| fd_list l : Forall finite_data l -> finite_data (VList l)
| fd_dict d : (forall k x, dget k d = Some x -> finite_data x) -> finite_data (VDict d).
Definition nonneg_float (f : spec_float) : Prop :=
  f = S754_zero false \/ exists m e, f = S754_finite false m e.

(** ** C46 *)

(** the last [n] elements *)
Definition last_n {A} (n : nat) (l : list A) : list A := skipn (length l - n) l.
Definition enqueue_all {A} (l : list A) (r : ring A) : ring A := fold_left (fun r x => enqueue x r) l r.

(** ** C44 *)

(** DESCRIPTION holds the lines [l] under the keys 1, 2, ... *)
Definition describes (mt451 : dict) (l : list str) : Prop :=
  exists d, dget (KStr $"DESCRIPTION") mt451 = Some (VDict d) /\ unique_keys d /\
    (forall k v, In (k, v) d <-> exists i s, nth_error l i = Some s /\ k = KInt (Z.of_nat i + 1) /\ v = VStr s).
(** one line *)
Definition one_line (s : str) : Prop := s <> [] /\ Forall (fun c => is_break c = false) s.

(** ** C43 *)

(** column [c] of the directory holds the number [x] in row [i] *)
Definition cell (c : str) (mt451 : dict) (i : key) (x : Z) : Prop :=
  exists d, dget (KStr c) mt451 = Some (VDict d) /\ dget i d = Some (VNum (NInt x)).
Definition entry (mt451 : dict) (i mf mt nc md : Z) : Prop :=
  cell $"MFx" mt451 (KInt i) mf /\ cell $"MTx" mt451 (KInt i) mt /\ cell $"NCx" mt451 (KInt i) nc /\ cell $"MOD" mt451 (KInt i) md.
(** MF/MT was listed with the modification number [md] *)
Definition had_mod (mt451 : dict) (i : key) (mf mt md : Z) : Prop :=
  cell $"MFx" mt451 i mf /\ cell $"MTx" mt451 i mt /\ cell $"MOD" mt451 i md.
(** there was no directory, or one whose rows are complete and that lists no section twice *)
Definition proper_directory (mt451 : dict) : Prop :=
  dget (KStr $"MFx") mt451 = None \/
  (exists fs, dget (KStr $"MFx") mt451 = Some (VDict fs) /\ unique_keys fs /\
     forall i, In i (map fst fs) -> exists mf mt md, had_mod mt451 i mf mt md) /\
  (forall i j mf mt md md', had_mod mt451 i mf mt md -> had_mod mt451 j mf mt md' -> i = j).
Definition pair_before (mf mt mf' mt' : Z) : Prop := mf < mf' \/ (mf = mf' /\ mt < mt').
Definition ascending2 {A} (m : mfdic A) : Prop :=
  ascending (map fst m) /\ forall mf sub, In (mf, sub) m -> ascending (map fst sub).

(** [new] is [old] with a directory of the sections [sec] and their lines: NXC rows, one for
    each section; each row holds the number of lines, for MF1/MT451 the number of its four
    control records, of the text lines and of the rows, and the modification number
    that the section had *)
Definition directory_of (sec : Z -> Z -> list str -> Prop) (old new : dict) : Prop :=
  exists nwd nxc, dget (KStr $"NWD") old = Some (VNum (NInt nwd)) /\ dget (KStr $"NXC") new = Some (VNum (NInt nxc)) /\
    (forall i, (exists mf mt nc md, entry new i mf mt nc md) <-> 1 <= i <= nxc) /\
    (forall mf mt, (exists i nc md, entry new i mf mt nc md) <-> mf <> 0 /\ mt <> 0 /\ exists ls, sec mf mt ls) /\
    (forall i j mf mt nc md nc' md', entry new i mf mt nc md -> entry new j mf mt nc' md' -> i = j) /\
    (forall i nc md, entry new i 1 451 nc md -> nc = 4 + nwd + nxc) /\
    (forall i mf mt nc md ls, entry new i mf mt nc md -> (mf, mt) <> (1, 451) -> sec mf mt ls -> nc = Z.of_nat (length ls)) /\
    (forall i mf mt nc md, entry new i mf mt nc md ->
       (exists j, had_mod old j mf mt md) \/ (~ (exists j md', had_mod old j mf mt md') /\ md = 0)) /\
    (forall k, ~ In k (map KStr [ $"MFx"; $"MTx"; $"NCx"; $"MOD"; $"NXC" ]) -> dget k new = dget k old).
(** the rows are in ascending order *)
Definition ascending_rows (d : dict) : Prop :=
  forall i j mf mt nc md mf' mt' nc' md', entry d i mf mt nc md -> entry d j mf' mt' nc' md' -> i < j -> pair_before mf mt mf' mt'.

(** a file of one material with the sections in ascending order, as write() produces it *)
Definition ordered_tape (t : tape) : Prop :=
  exists m, t_mats t = [m] /\ ascending (map f_mf (m_files m)) /\
    Forall (fun f => 0 < f_mf f /\ ascending (map s_mt (f_secs f))) (m_files m).

(** ** C45 *)

(** the object under [q] is a dictionary with the key [name], reached through dictionaries *)
Inductive stored_at (name : key) : list key -> val -> Prop :=
| sa_here d v : dget name d = Some v -> stored_at name [name] (VDict d)
| sa_below d k v p : In (k, v) d -> stored_at name p v -> stored_at name (k :: p) (VDict d).
(** like [stored_at], and no dictionary on the way has the key *)
Inductive first_stored_at (name : key) : list key -> val -> Prop :=
| fs_here d v : dget name d = Some v -> first_stored_at name [name] (VDict d)
| fs_below d k v p : dget name d = None -> In (k, v) d -> first_stored_at name p v -> first_stored_at name (k :: p) (VDict d).

(** the same data up to the order of entries *)
Inductive same_data : val -> val -> Prop :=
| sd_same v : (forall d, v <> VDict d) -> same_data v v
| sd_dict d e : 
    (forall k, (exists x, dget k d = Some x) <-> (exists y, dget k e = Some y)) ->
    (forall k x y, dget k d = Some x -> dget k e = Some y -> same_data x y) ->
    same_data (VDict d) (VDict e).
(** what json.loads(json.dumps(d)) makes of the keys: strings *)
Fixpoint json_keys (v : val) : val :=
  match v with
  | VDict d => VDict (map (fun kv => (KStr (str_of_key (fst kv)), json_keys (snd kv))) d)
  | VList l => VList (map json_keys l)
  | _ => v
  end.
(** no dictionary inside *)
Inductive no_dict : val -> Prop :=
| no_list l : Forall no_dict l -> no_dict (VList l)
| no_other v : (forall d, v <> VDict d) -> (forall l, v <> VList l) -> no_dict v.
(** dictionaries whose keys are unique and of which no name is a number, at most [n] deep;
    lists do not contain dictionaries *)
Inductive named_data : nat -> val -> Prop :=
| nd_other n v : no_dict v -> named_data n v
| nd_dict n d : unique_keys d -> (forall s v, In (KStr s, v) d -> int_of_str s = None) ->
    (forall k v, In (k, v) d -> named_data n v) -> named_data (S n) (VDict d).
(** the keys of all dictionaries are unique *)
Inductive unique_data : val -> Prop :=
| ud_dict d : unique_keys d -> (forall k v, In (k, v) d -> unique_data v) -> unique_data (VDict d)
| ud_other v : (forall d, v <> VDict d) -> unique_data v.

(** the lines of the section MF/MT of a written tape, without its SEND record *)
Definition written_section (t : written) (mf mt : Z) (ls : list str) : Prop :=
  exists f s, In f (wr_files t) /\ f_mf f = mf /\ In s (f_secs f) /\ s_mt s = mt /\ ls = s_body s.
(** [d'] is [d] with the data [x] in MF/MT *)
Definition with_section {D} (mf mt : Z) (x : D) (d d' : mfdic (section D)) : Prop :=
  is_dict2 d' /\ forall mf' mt' y, holds d' mf' mt' y <-> ((mf', mt') = (mf, mt) /\ y = Parsed x) \/ ((mf', mt') <> (mf, mt) /\ holds d mf' mt' y).
