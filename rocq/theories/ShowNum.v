(** * Characters: printing and reading numbers.

    Text is a list of characters.  [show_num] is what [str << setprecision(8) << v]
    writes (search_point.cpp:105,121): printf's [%.8g].  [read_number] is what
    [str >> v] reads, for [std::stringstream] (search_point.cpp:106),
    [std::ifstream] (objective_info.cpp:75) and [xo::char_stream]
    (par_info.cpp:45 etc.; xo is not in /repo, assumed to use [strtod]). *)
From Coq Require Import ZArith Bool.
From Flocq Require Import Core BinarySingleNaN.
From Verif Require Import Prelude Flt Round8.
#[local] Open Scope Z_scope.

Definition text : Type := list ascii.

(** Source string literal to text. *)
Definition chars (s : string) : text := list_ascii_of_string s.

Definition is_ws (c : ascii) : bool :=
  match c with
  | " "%char | "009"%char | "010"%char | "011"%char | "012"%char | "013"%char => true
  | _ => false
  end.
Definition is_digit (c : ascii) : bool :=
  let n := nat_of_ascii c in Nat.leb 48 n && Nat.leb n 57.
Definition digit_val (c : ascii) : Z := Z.of_nat (nat_of_ascii c) - 48.
Definition digit_char (d : Z) : ascii := ascii_of_nat (48 + Z.to_nat d).

(** std::isalpha in the "C" locale (par_io.cpp:33). *)
Definition is_alpha (c : ascii) : bool :=
  let n := nat_of_ascii c in
  (Nat.leb 65 n && Nat.leb n 90) || (Nat.leb 97 n && Nat.leb n 122).

Fixpoint skip_ws (s : text) : text :=
  match s with c :: t => if is_ws c then skip_ws t else s | [] => [] end.

(** Maximal run of digits: value so far, number of digits, rest. *)
Fixpoint read_digits (acc : Z) (cnt : Z) (s : text) : Z * Z * text :=
  match s with
  | c :: t => if is_digit c then read_digits (10 * acc + digit_val c) (cnt + 1) t else (acc, cnt, s)
  | [] => (acc, cnt, [])
  end.

Definition read_sign (s : text) : bool * text :=
  match s with
  | "-"%char :: t => (true, t)
  | "+"%char :: t => (false, t)
  | _ => (false, s)
  end.

(** Optional exponent; not consumed unless at least one digit follows. *)
Definition read_exp (s : text) : Z * text :=
  match s with
  | c :: t =>
    if (Ascii.eqb c "e" || Ascii.eqb c "E")%char then
      let '(sg, t1) := read_sign t in
      let '(v, cnt, t2) := read_digits 0 0 t1 in
      if cnt =? 0 then (0, s) else ((if sg then - v else v), t2)
    else (0, s)
  | [] => (0, [])
  end.

(** [>>] into a double: skip white space, then the longest decimal numeral;
    [None] is failure.  Hexadecimal floats, "inf" and "nan" are not numerals
    here (std::num_get rejects them; for xo::char_stream this is an assumption). *)
Definition read_number (s0 : text) : option (f64 * text) :=
  let s := skip_ws s0 in
  let '(sg, s) := read_sign s in
  let '(n1, c1, s) := read_digits 0 0 s in
  let '(n2, c2, s) :=
    match s with
    | "."%char :: t => read_digits n1 0 t
    | _ => (n1, 0, s)
    end in
  if c1 + c2 =? 0 then None
  else let '(ex, s) := read_exp s in Some (dec_to_f64 sg n2 (ex - c2), s).

(** Decimal digits of [n] (most significant first, none for [n <= 0]). *)
Fixpoint zdigits (fuel : nat) (n : Z) : list Z :=
  match fuel with
  | O => []
  | S f => if n <=? 0 then [] else zdigits f (n / 10) ++ [n mod 10]
  end.

(** [%g] removes trailing zeros of the significand. *)
Fixpoint strip_zeros (fuel : nat) (n k : Z) : Z * Z :=
  match fuel with
  | O => (n, k)
  | S f => if n mod 10 =? 0 then strip_zeros f (n / 10) (k + 1) else (n, k)
  end.

Definition show_digits (ds : list Z) : text := map digit_char ds.
Definition zeros (n : Z) : text := repeat "0"%char (Z.to_nat n).

(** The exponent of [%e]: sign and at least two digits. *)
Definition show_exp (x : Z) : text :=
  let ax := Z.abs x in
  "e"%char :: (if x <? 0 then "-"%char else "+"%char) ::
  (if ax <? 10 then "0"%char :: (if ax =? 0 then ["0"%char] else show_digits (zdigits 3 ax)) else show_digits (zdigits 4 ax)).

(** [%.8g] of the positive number [n * 10^k], [n] having at most 8 significant digits. *)
Definition show_dec8 (n0 k0 : Z) : text :=
  let '(n, k) := strip_zeros 12 n0 k0 in
  let ds := zdigits 12 n in
  let l := Z.of_nat (length ds) in
  let x := k + l - 1 in
  if (-4 <=? x) && (x <? 8) then
    if x <? 0 then "0"%char :: "."%char :: zeros (- x - 1) ++ show_digits ds
    else if l <=? x + 1 then show_digits ds ++ zeros (x + 1 - l)
    else show_digits (firstn (Z.to_nat (x + 1)) ds) ++ "."%char :: show_digits (skipn (Z.to_nat (x + 1)) ds)
  else
    match ds with
    | [] => []
    | [d] => digit_char d :: show_exp x
    | d :: r => digit_char d :: "."%char :: show_digits r ++ show_exp x
    end.

Definition show_num (v : f64) : text :=
  match v with
  | B754_zero s => (if s then ["-"%char] else []) ++ ["0"%char]
  | B754_infinity s => (if s then ["-"%char] else []) ++ chars "inf"
  | B754_nan => chars "nan"
  | B754_finite s m e _ =>
    let '(n, k) := dec8_pos m e in
    (if s then ["-"%char] else []) ++ show_dec8 n k
  end.

(** The text of a round trip through a stringstream, with the C++11 rule that a
    failed extraction stores zero. *)
Definition print_and_read (v : f64) : f64 :=
  match read_number (show_num v) with Some (w, _) => w | None => fzero end.
