(** * Model of the slice file names (src/libdar/sar_tools.cpp).

    Strings are lists of character codes. A repository (entrepot) is the list of its entries; the listing is not
    affected by the removals made while reading it. *)
From Verif Require Import Base DeciModel.
Open Scope N_scope.
Definition DOT : N := 46.

(** sar_tools_make_padded_number, sar_tools.cpp:182-191; the while loop runs at most min_digits times *)
Fixpoint pad_loop (fuel : nat) (s : list N) (min_digits : N) : list N :=
  match fuel with
  | O => s
  | S k => if N.of_nat (length s) <? min_digits then pad_loop k (48 :: s) min_digits else s
  end.
Definition make_padded (s : list N) (min_digits : N) : list N := pad_loop (N.to_nat min_digits) s min_digits.
(** sar_tools_make_filename, sar_tools.cpp:73-82 *)
Definition make_filename (base : list N) (num min_digits : N) (ext : list N) : res (list N) :=
  let* digits := int_to_string num in
  Ok (base ++ [DOT] ++ make_padded digits min_digits ++ [DOT] ++ ext).

(** std::string::find(x) == 0 and rfind(x) == size() - x.size() *)
Fixpoint is_prefix (p s : list N) : bool :=
  match p, s with
  | [], _ => true
  | a :: p', b :: s' => (a =? b) && is_prefix p' s'
  | _, [] => false
  end.
Definition is_suffix (p s : list N) : bool := is_prefix (rev p) (rev s).

(** sar_tools_extract_num, sar_tools.cpp:84-117: None for false; every Egeneric gives false *)
Definition extract_num (filename base : list N) (min_digits : N) (ext : list N) : option N :=
  let min_size := (length base + length ext + 2)%nat in
  if (length filename <=? min_size)%nat then None
  else if (N.of_nat (length filename - min_size) <? min_digits) && negb (min_digits =? 0) then None
  else if negb (is_prefix base filename) then None
  else if negb (is_suffix ext filename) then None
  else
    let from := (length base + 1)%nat in
    let upto := (length filename - length ext - 1)%nat in
    match string_to_int (firstn (upto - from) (skipn from filename)) with
    | Ok n => Some n
    | Err _ => None
    end.
(** sar_tools_get_higher_number_in_dir, sar_tools.cpp:119-152: None when false *)
Fixpoint higher_loop (dir : list (list N)) (base : list N) (min_digits : N) (ext : list N) (ret : N) (somme : bool) : N * bool :=
  match dir with
  | [] => (ret, somme)
  | e :: r =>
    match extract_num e base min_digits ext with
    | Some cur => higher_loop r base min_digits ext (if ret <? cur then cur else ret) true
    | None => higher_loop r base min_digits ext ret somme
    end
  end.
Definition get_higher (dir : list (list N)) (base : list N) (min_digits : N) (ext : list N) : option N :=
  let '(ret, somme) := higher_loop dir base min_digits ext 0 false in if somme then Some ret else None.
(** sar_tools_remove_higher_slices_than, sar_tools.cpp:154-180: the entries left *)
Fixpoint remove_higher (dir : list (list N)) (base : list N) (min_digits : N) (ext : list N) (keep : N) : list (list N) :=
  match dir with
  | [] => []
  | e :: r =>
    match extract_num e base min_digits ext with
    | Some cur => if keep <? cur then remove_higher r base min_digits ext keep else e :: remove_higher r base min_digits ext keep
    | None => e :: remove_higher r base min_digits ext keep
    end
  end.
