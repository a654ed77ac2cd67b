(** A concrete float formatting: what operator<<(ostream, float) (default precision 6, so
    printf's "%g") prints and what std::stof (strtof, round to nearest even) reads back in
    the GNU C library.  Used by cloudini_lib/src/cloudini.cpp:187 (`yaml << *resolution`)
    and :224 (std::stof).  Simplification: strtof's hexadecimal, "inf" and "nan" inputs are
    rejected here; the printer never emits hexadecimal. *)
From Coq Require Import String Ascii.
From Verif Require Import Base Types Header.

Definition f32_neg (b : Z) : bool := 2147483648 <=? b.
Definition f32_expo (b : Z) : Z := (b / 8388608) mod 256.
Definition f32_mant (b : Z) : Z := b mod 8388608.
(** magnitude as a fraction num/den; exponents 0..254 *)
Definition f32_frac (b : Z) : Z * Z :=
  let m := if f32_expo b =? 0 then f32_mant b else f32_mant b + 8388608 in
  let e := (if f32_expo b =? 0 then 1 else f32_expo b) - 150 in
  if 0 <=? e then (m * 2 ^ e, 1) else (m, 2 ^ (- e)).
(** num/den rounded to an integer, ties to even *)
Definition round_div (num den : Z) : Z :=
  let q := num / den in let r := num mod den in
  if (2 * r <? den) then q else if (den <? 2 * r) then q + 1 else if Z.even q then q else q + 1.
(** num/den * 10^k *)
Definition scale10 (num den k : Z) : Z * Z := if 0 <=? k then (num * 10 ^ k, den) else (num, den * 10 ^ (- k)).
(** the decimal exponent: the largest x in [lo, lo + n) with 10^x <= num/den *)
Fixpoint decimal_exp (n : nat) (lo num den : Z) : Z :=
  match n with
  | O => lo
  | S k => let x := lo + Z.of_nat k in let '(a, b) := scale10 num den (- x) in if b <=? a then x else decimal_exp k lo num den
  end.
(** exactly [n] decimal digits of v *)
Fixpoint fixed_digits (n : nat) (v : Z) : list Z := match n with O => [] | S k => fixed_digits k (v / 10) ++ [48 + v mod 10] end.
Fixpoint drop_zeros (s : list Z) : list Z := match s with c :: s' => if c =? 48 then drop_zeros s' else s | [] => [] end.
Definition strip_zeros (s : list Z) : list Z := rev (drop_zeros (rev s)).
Definition with_fraction (int frac : list Z) : list Z := match strip_zeros frac with [] => int | f => int ++ [46] ++ f end.
Definition print_g6 (b : Z) : list Z :=
  let sign := if f32_neg b then [45] else [] in
  if f32_expo b =? 255 then sign ++ (if f32_mant b =? 0 then str "inf" else str "nan")
  else
    let '(num, den) := f32_frac b in
    if num =? 0 then sign ++ str "0"
    else
      let x0 := decimal_exp 90 (-46) num den in
      let '(a, c) := scale10 num den (5 - x0) in
      let d0 := round_div a c in
      let '(d, x) := if d0 =? 1000000 then (100000, x0 + 1) else (d0, x0) in
      let ds := fixed_digits 6 d in
      sign ++
      (if (x <? -4) || (6 <=? x) then
         with_fraction (firstn 1 ds) (skipn 1 ds) ++ [101; if x <? 0 then 45 else 43] ++ fixed_digits 2 (Z.abs x)
       else if 0 <=? x then with_fraction (firstn (Z.to_nat (x + 1)) ds) (skipn (Z.to_nat (x + 1)) ds)
       else with_fraction [48] (repeat 48 (Z.to_nat (- x - 1)) ++ ds)).

(** *** strtof *)
Fixpoint take_digits (s : list Z) : list Z * list Z :=
  match s with c :: s' => if isdigit c then let '(d, r) := take_digits s' in (c :: d, r) else ([], s) | [] => ([], []) end.
Definition value_of (d : list Z) : Z := fold_left (fun a c => 10 * a + (c - 48)) d 0.
(** the nearest binary32, ties to even, of num/den > 0; [None]: out of range (overflow, or
    a result below the normal range that is not exact), where strtof sets ERANGE and
    std::stof throws *)
Fixpoint binary_exp (n : nat) (lo num den : Z) : Z :=
  match n with
  | O => lo
  | S k => let x := lo + Z.of_nat k in
           if (if 0 <=? x then den * 2 ^ x <=? num else den <=? num * 2 ^ (- x)) then x else binary_exp k lo num den
  end.
Definition round_f32 (num den : Z) : option Z :=
  let x := Z.max (-126) (binary_exp 300 (-150) num den) in
  let e := x - 23 in
  let '(a, b) := if 0 <=? e then (num, den * 2 ^ e) else (num * 2 ^ (- e), den) in
  let m := round_div a b in
  if (m <? 8388608) && negb (m * b =? a) then None
  else if m <? 8388608 then Some m
  else
    let r := (x + 126) * 8388608 + m in
    if 2139095040 <=? r then None else Some r.
Definition parse_f32 (s : list Z) : option Z :=
  let s0 := drop_space s in
  let '(neg, s1) := match s0 with 45 :: t => (true, t) | 43 :: t => (false, t) | t => (false, t) end in
  let '(int, s2) := take_digits s1 in
  let '(frac, s3) := match s2 with 46 :: t => take_digits t | t => ([], t) end in
  match int ++ frac with
  | [] => None
  | _ =>
      let ex := match s3 with
                | c :: t => if (c =? 101) || (c =? 69) then
                    let '(eneg, t1) := match t with 45 :: u => (true, u) | 43 :: u => (false, u) | u => (false, u) end in
                    let '(ed, _) := take_digits t1 in if (eneg : bool) then - value_of ed else value_of ed
                  else 0
                | [] => 0
                end in
      let m := value_of (int ++ frac) in
      let sg := if (neg : bool) then 2147483648 else 0 in
      if m =? 0 then Some sg
      else
        let '(num, den) := scale10 m 1 (ex - zlen frac) in
        match round_f32 num den with Some r => Some (r + sg) | None => None end
  end.
Definition gnu_text : float_text := mkFT print_g6 parse_f32.
