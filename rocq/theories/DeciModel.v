(** * Model of class deci (src/libdar/deci.cpp): decimal notation of integers.

    The storage holding the digits is a list of bytes, two nibbles per byte, 0xF filling the unused
    ones. Integers are [N] (C03: infinint arithmetic is exact). *)
From Verif Require Import Base InfinintModel.
Open Scope N_scope.

Definition PAS : nat := 5.   (* deci.cpp:37 *)
(** nibble accessors, deci.cpp:38-41 *)
Definition get_left (a : N) : N := N.shiftr (N.land a 240) 4.
Definition get_right (a : N) : N := N.land a 15.
Definition set_left (a val : N) : N := N.lor (N.land a 15) (N.land (N.shiftl val 4) 255).
Definition set_right (a val : N) : N := N.lor (N.land a 240) (N.land val 15).

(** deci.cpp:43-54; '0' = 48, '9' = 57 *)
Definition digit_htoc (c : N) : res N := if (c <? 48) || (57 <? c) then Err Edeci else Ok (c - 48).
Definition digit_ctoh (c : N) : res N := if 9 <? c then Err Ebug else Ok (48 + c).

(** decicoupe, deci.cpp:56-113. The storage is [repeat 0xFF free ++ written]; the iterator [it] points at
    the last of the [free] cells (rend when free = 0). *)
Fixpoint decicoupe (fuel : nat) (x : N) (recule : bool) (tmp : N) (free : nat) (written : list N) : res (list N) :=
  match fuel with
  | O => Err Fuel
  | S k =>
    if (0 <? x) || recule then
      let '(x', r) := if 0 <? x then (x / 10, x mod 10) else (x, 15) in
      if recule then
        let tmp := set_left tmp r in
        let free := if (free =? 0)%nat then PAS else free in
        decicoupe k x' false tmp (free - 1)%nat (tmp :: written)
      else decicoupe k x' true (set_right tmp r) free written
    else Ok (repeat 255 free ++ written)
  end.

(** deci::reduce, deci.cpp:207-263: the scan loop (returns the modified storage and justif_size) *)
Fixpoint red_scan (l : list N) : list N * nat :=
  match l with
  | [] => ([], 0%nat)
  | b :: r =>
    let b := if get_left b =? 0 then set_left b 15 else b in
    if negb (get_left b =? 15) then (b :: r, 0%nat)           (* leading_zero becomes false *)
    else
      let b := if get_right b =? 0 then set_right b 15 else b in
      if negb (get_right b =? 15) then (b :: r, 0%nat)
      else let '(r', j) := red_scan r in (b :: r', S j)
  end.
Definition deci_reduce (l : list N) : list N :=
  let '(l', j) := red_scan l in
  if (j =? length l')%nat then
    skipn (j - 1) (removelast l' ++ [240])    (* *rbegin() = 0xF0 ; 0xF0 = 15,0 *)
  else skipn j l'.

(** constructor from an infinint, deci.cpp:172-185 *)
Definition deci_of_int (x : N) : res (list N) :=
  let* l := decicoupe (S (S (N.to_nat (N.size x)))) x false 0 PAS [] in
  Ok (deci_reduce l).

(** constructor from a string, deci.cpp:115-170; [rs] is the string read by its reverse iterator,
    the SRC_BUG of line 149 is the case [free = 0] *)
Fixpoint deci_str_loop (rs : list N) (recule : bool) (tmp : N) (free : nat) (written : list N) : res (list N) :=
  match rs with
  | [] =>
    if recule then
      match free with
      | O => Err Ebug
      | S f => Ok (repeat 255 f ++ set_left tmp 15 :: written)
      end
    else Ok (repeat 255 free ++ written)
  | c :: r =>
    let* d := digit_htoc c in
    if recule then
      match free with
      | O => Err Ebug
      | S f => deci_str_loop r false (set_left tmp d) f (set_left tmp d :: written)
      end
    else deci_str_loop r true (set_right tmp d) free written
  end.
Definition deci_of_string (s : list N) : res (list N) :=
  let size := (if Nat.even (length s) then length s / 2 else length s / 2 + 1)%nat in
  if (size =? 0)%nat then Err Erange
  else
    let* l := deci_str_loop (rev s) false 255 size [] in
    Ok (deci_reduce l).

(** deci::human, deci.cpp:265-289 *)
Definition nibbles (l : list N) : list N := flat_map (fun b => [get_left b; get_right b]) l.
Fixpoint human_loop (ns : list N) : res (list N) :=
  match ns with
  | [] => Ok []
  | c :: r =>
    if c =? 15 then human_loop r
    else let* h := digit_ctoh c in let* t := human_loop r in Ok (h :: t)
  end.
Definition deci_human (l : list N) : res (list N) := human_loop (nibbles l).

(** deci::computer, deci.cpp:291-318 *)
Definition deci_computer (l : list N) : N :=
  fold_left (fun r c => if c =? 15 then r else r * 10 + c) (nibbles l) 0.

(** the two compositions used by the rest of libdar, e.g. sar_tools.cpp *)
Definition int_to_string (x : N) : res (list N) := let* d := deci_of_int x in deci_human d.
Definition string_to_int (s : list N) : res N := let* d := deci_of_string s in Ok (deci_computer d).
