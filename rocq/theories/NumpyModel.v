(** The part of numpy that nlcodec/db relies on: integer dtypes, promotion, concatenation.
    Nothing here is nlcodec code except [best_dtype]. *)
From Verif Require Import Py.
Local Open Scope Z_scope.
Local Open Scope list_scope.
Local Open Scope res_scope.

Inductive dtype : Set := U8 | I8 | U16 | I16 | U32 | I32 | U64 | I64 | F64.
Definition dtype_eqb (a b : dtype) : bool :=
  match a, b with
  | U8, U8 | I8, I8 | U16, U16 | I16, I16 | U32, U32 | I32, I32 | U64, U64 | I64, I64 | F64, F64 => true
  | _, _ => false
  end.

(** width in bits; np.iinfo(t).min and .max (F64 has no iinfo; it is not among the options) *)
Definition bits (d : dtype) : Z :=
  match d with U8 | I8 => 8 | U16 | I16 => 16 | U32 | I32 => 32 | U64 | I64 | F64 => 64 end.
Definition signed (d : dtype) : bool := match d with I8 | I16 | I32 | I64 => true | _ => false end.
Definition is_float (d : dtype) : bool := match d with F64 => true | _ => false end.
Definition dmin (d : dtype) : Z := if signed d then - 2 ^ (bits d - 1) else 0.
Definition dmax (d : dtype) : Z := if signed d then 2 ^ (bits d - 1) - 1 else 2 ^ bits d - 1.

(** Conversion of an integer to binary64: round to 53 significant bits, ties to even. A binary64
    number that comes from an integer of at most 64 bits is again an integer, so float64 array
    elements are represented by integers. *)
Definition round53 (z : Z) : Z :=
  let n := Z.abs z in
  if n <? 2 ^ 53 then z
  else
    let e := Z.log2 n - 52 in
    let q := n / 2 ^ e in
    let r := n mod 2 ^ e in
    let half := 2 ^ (e - 1) in
    let q' := if (half <? r) || ((r =? half) && Z.odd q) then q + 1 else q in
    Z.sgn z * (q' * 2 ^ e).

(** Conversion of an integer to a dtype: integers wrap around. *)
Definition cast (d : dtype) (v : Z) : Z :=
  match d with
  | F64 => round53 v
  | _ => if signed d then (v + 2 ^ (bits d - 1)) mod 2 ^ bits d - 2 ^ (bits d - 1) else v mod 2 ^ bits d
  end.

(** np.promote_types *)
Definition of_width (sgn : bool) (w : Z) : dtype :=
  if sgn then if w <=? 8 then I8 else if w <=? 16 then I16 else if w <=? 32 then I32 else if w <=? 64 then I64 else F64
  else if w <=? 8 then U8 else if w <=? 16 then U16 else if w <=? 32 then U32 else U64.
Definition promote (a b : dtype) : dtype :=
  if is_float a || is_float b then F64
  else if Bool.eqb (signed a) (signed b) then of_width (signed a) (Z.max (bits a) (bits b))
  else
    let s := if signed a then a else b in   (* the signed one *)
    let u := if signed a then b else a in
    of_width true (Z.max (bits s) (2 * bits u)).

(** one-dimensional arrays *)
Record array : Set := MkArr { a_type : dtype; a_vals : list Z }.
(** np.array(values, dtype) *)
Definition np_array (d : dtype) (vals : list Z) : array := MkArr d (map (cast d) vals).
(** np.concatenate((a, b)) *)
Definition concatenate (a b : array) : array :=
  let d := promote (a_type a) (a_type b) in
  MkArr d (map (cast d) (a_vals a) ++ map (cast d) (a_vals b)).
(** a[start:stop] with integers start and stop *)
Definition slice (a : array) (start stop : Z) : array :=
  let n := length (a_vals a) in
  let i := py_bound n start in
  let j := py_bound n stop in
  MkArr (a_type a) (firstn (j - i) (skipn i (a_vals a))).
Definition a_len (a : array) : Z := Z.of_nat (length (a_vals a)).

(** nlcodec/db/core.py:34-52. The values are integers, so the isinstance assertions hold. *)
Definition dtype_options : list dtype := [U8; I8; U16; I16; U32; I32; U64; I64].
Definition best_dtype (mn mx : Z) : res dtype :=
  match find (fun d => (dmin d <=? mn) && (mx <=? dmax d)) dtype_options with
  | Some d => Ok d
  | None => Raise AssertionError
  end.
