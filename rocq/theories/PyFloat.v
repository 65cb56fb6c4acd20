(** Python floats: binary64 numbers (the standard library's [spec_float]), their
    correctly rounded construction, [float(str)] and fixed-point formatting.

    All conversions are CPython's: correctly rounded (round-half-even). *)
From Coq Require Import Ascii String ZArith QArith Bool Lia List.
From Coq Require Import Floats.SpecFloat.
From Verif Require Import PyBase.
Import ListNotations.
Open Scope Z_scope.

(** nearest integer to [n/d] ([d > 0]), ties to even *)
Definition rhe (n d : Z) : Z :=
  let q := n / d in
  match 2 * (n mod d) ?= d with
  | Lt => q
  | Gt => q + 1
  | Eq => if Z.even q then q else q + 1
  end.

(** binary exponent of the last place of the binary64 number nearest to
    [n/d] for [n, d > 0] (before a carry); -1074 for subnormal numbers *)
Definition ulp_exp (n d : Z) : Z :=
  let e0 := Z.log2 n - Z.log2 d in
  let below := if 0 <=? e0 then n <? d * 2 ^ e0 else n * 2 ^ (- e0) <? d in
  Z.max (-1074) (if below then e0 - 53 else e0 - 52).

(** [n/d / 2^e] rounded to an integer *)
Definition rhe_scaled (n d e : Z) : Z :=
  if 0 <=? e then rhe n (d * 2 ^ e) else rhe (n * 2 ^ (- e)) d.

(** the binary64 number nearest to [(-1)^neg * n/d] ([n >= 0], [d > 0]) *)
Definition round64 (neg : bool) (n d : Z) : spec_float :=
  if n =? 0 then S754_zero neg else
  let e := ulp_exp n d in
  let m := rhe_scaled n d e in
  let '(m, e) := if m =? 2 ^ 53 then (2 ^ 52, e + 1) else (m, e) in
  if 971 <? e then S754_infinity neg else
  match m with
  | Zpos p => S754_finite neg p e
  | _ => S754_zero neg
  end.

(** exact value of a finite number, as numerator and denominator *)
Definition sf_num (f : spec_float) : Z :=
  match f with
  | S754_finite s m e => (if s then - 1 else 1) * Zpos m * 2 ^ (Z.max 0 e)
  | _ => 0
  end.
Definition sf_den (f : spec_float) : Z :=
  match f with
  | S754_finite s m e => 2 ^ (Z.max 0 (- e))
  | _ => 1
  end.

Definition is_finite (f : spec_float) : bool :=
  match f with S754_zero _ | S754_finite _ _ _ => true | _ => false end.

(** the rational value *)
Definition qof (n d : Z) : Q := Qmake n (Z.to_pos d).
Definition sfQ (f : spec_float) : Q := qof (sf_num f) (sf_den f).

(** comparison of finite numbers/fractions: [n1/d1 < n2/d2] *)
Definition frac_ltb (n1 d1 n2 d2 : Z) : bool := n1 * d2 <? n2 * d1.
Definition frac_leb (n1 d1 n2 d2 : Z) : bool := n1 * d2 <=? n2 * d1.
Definition frac_eqb (n1 d1 n2 d2 : Z) : bool := n1 * d2 =? n2 * d1.

(** rounding of a signed fraction *)
Definition round64_signed (n d : Z) : spec_float :=
  if n <? 0 then round64 true (- n) d else round64 false n d.

(** sign bit *)
Definition sf_sign (f : spec_float) : bool :=
  match f with
  | S754_zero s | S754_infinity s | S754_finite s _ _ => s
  | S754_nan => false
  end.

(** [abs(f)] *)
Definition sf_abs (f : spec_float) : spec_float :=
  match f with
  | S754_zero _ => S754_zero false
  | S754_infinity _ => S754_infinity false
  | S754_nan => S754_nan
  | S754_finite _ m e => S754_finite false m e
  end.

(** the binary64 numbers in canonical form *)
Definition valid64 (f : spec_float) : Prop :=
  match f with
  | S754_finite _ m e =>
      (2 ^ 52 <= Zpos m < 2 ^ 53 /\ -1074 <= e <= 971) \/ (Zpos m < 2 ^ 52 /\ e = -1074)
  | _ => True
  end.

(** ** [float(s)] *)

Definition lower (c : ascii) : ascii :=
  let n := code c in
  if ((65 <=? n) && (n <=? 90))%nat then ascii_of_nat (n + 32) else c.

(** longest prefix of digits *)
Fixpoint span_digits (s : str) : str * str :=
  match s with
  | c :: r => if is_digit c then let '(a, b) := span_digits r in (c :: a, b) else ([], s)
  | [] => ([], [])
  end.

(** value of a digit string known to consist of digits *)
Definition dval (s : str) : Z :=
  match digits_val_acc s 0 with Some v => v | None => 0 end.

(** an unsigned decimal literal: digits, optional point and digits, optional exponent;
    result [(m, e)] denotes [m * 10^e] *)
Definition parse_decimal (s : str) : option (Z * Z) :=
  let '(ip, r1) := span_digits s in
  let '(fp, r2) := match r1 with
                   | c :: r => if chr_eqb c "."%char then span_digits r else ([], r1)
                   | [] => ([], [])
                   end in
  match ip ++ fp with
  | [] => None
  | ds =>
      let m := dval ds in
      let k := - Z.of_nat (length fp) in
      match r2 with
      | [] => Some (m, k)
      | c :: r =>
          if chr_eqb (lower c) "e"%char then
            let '(neg, r3) := take_sign r in
            let '(ep, r4) := span_digits r3 in
            match ep, r4 with
            | _ :: _, [] => Some (m, k + (if neg then - dval ep else dval ep))
            | _, _ => None
            end
          else None
      end
  end.

(** [m * 10^e] as a fraction *)
Definition dec_num (m e : Z) : Z := m * 10 ^ (Z.max 0 e).
Definition dec_den (e : Z) : Z := 10 ^ (Z.max 0 (- e)).

(** [float(s)]; [None] models ValueError *)
Definition float_of_str (s : str) : option spec_float :=
  let t := strip s in
  if negb (us_ok t) then None else
  let '(neg, u) := take_sign (drop_us t) in
  let lu := map lower u in
  if str_eqb lu $"inf" || str_eqb lu $"infinity" then Some (S754_infinity neg)
  else if str_eqb lu $"nan" then Some S754_nan
  else match parse_decimal u with
       | Some (m, e) => Some (round64 neg (dec_num m e) (dec_den e))
       | None => None
       end.

(** ** Fixed-point formatting: [format(x, ".pf")] of [x = n/d >= 0] *)
Definition fixed_digits (p : nat) (N : Z) : str :=
  str_of_nonneg (N / 10 ^ Z.of_nat p) ++
  match p with
  | O => []
  | _ => "."%char :: digits_fixed p (N mod 10 ^ Z.of_nat p)
  end.
Definition format_f (p : nat) (n d : Z) : str := fixed_digits p (rhe (n * 10 ^ Z.of_nat p) d).
