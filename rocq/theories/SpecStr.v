(** Specification vocabulary for numerals.  Strings are lists of bytes. *)
From Coq Require Import ZArith List Bool.
Import ListNotations.
Open Scope Z_scope.

(** The number denoted by digits in base [r], most significant one first. *)
Definition radix_value (r : Z) (ds : list Z) : Z := fold_left (fun acc d => acc * r + d) ds 0.

(** The digit a byte stands for: '0'..'9', 'a'..'z', 'A'..'Z'. *)
Definition char_value (b : Z) : option Z :=
  if (48 <=? b) && (b <=? 57) then Some (b - 48)
  else if (97 <=? b) && (b <=? 122) then Some (b - 87)
  else if (65 <=? b) && (b <=? 90) then Some (b - 55)
  else None.

(** The digits of a string; underscores and other bytes contribute none. *)
Fixpoint string_digits (s : list Z) : list Z :=
  match s with
  | [] => []
  | b :: t => match char_value b with Some d => d :: string_digits t | None => string_digits t end
  end.
Definition string_value (r : Z) (s : list Z) : Z := radix_value r (string_digits s).

(** A numeral in base [r]: not empty, no underscore (byte 95) at either end,
    otherwise digits below [r] and underscores. *)
Definition numeral (r : Z) (s : list Z) : Prop :=
  s <> [] /\ hd 95 s <> 95 /\ last s 95 <> 95 /\
  Forall (fun b => b = 95 \/ exists d, char_value b = Some d /\ d < r) s.

(** The canonical numeral: digits below [r] only, lower or upper case as told
    by [alpha] (the byte of 'a' or 'A'), no leading '0' (byte 48) except in
    the numeral "0". *)
Definition canonical_numeral (r alpha : Z) (s : list Z) : Prop :=
  s <> [] /\ (hd 0 s = 48 -> s = [48]) /\
  Forall (fun b => (48 <= b <= 57 /\ b - 48 < r) \/ (alpha <= b < alpha + 26 /\ b - alpha + 10 < r)) s.
