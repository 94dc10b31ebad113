(** * Model of template class limitint<B> (src/libdar/limitint.hpp): the integer type of the
    32 and 64 bit builds. [w] is the number of bits of B (32 or 64), [w / 8] its [bytesize]. Every
    machine operation is written with its wrap-around (mod 2^w); a shift by at least the width
    of the type, which C++ leaves undefined, gives [Err UB]. *)
From Verif Require Import Base InfinintModel.
Open Scope N_scope.

Definition wrap (w x : N) : N := x mod 2 ^ w.
Definition bytesize (w : N) : N := w / 8.

(** int_tools_higher_power_of_2, int_tools.hpp:62-70 *)
Fixpoint hp2_loop (fuel : nat) (i val : N) : N :=
  match fuel with
  | O => i
  | S k => if 1 <? N.shiftr val i then hp2_loop k (i + 1) val else i
  end.
Definition hp2 (val : N) : N := hp2_loop 64 0 val.

(** operator += , limitint.hpp:409-418 *)
Definition lim_add (w a b : N) : res N :=
  let r := wrap w (a + b) in
  if (r <? a) || (r <? b) then Err Elimitint else Ok r.

(** operator -= , limitint.hpp:420-430 *)
Definition lim_sub (w a b : N) : res N :=
  if a <? b then Err Erange else Ok (a - b).

(** operator *= , limitint.hpp:432-450 *)
Definition lim_mul (w a b : N) : res N :=
  let max_power := w - 1 in
  let total := wrap w (hp2 a + hp2 b + 1) in
  if max_power <? total then Err Elimitint
  else
    let total := wrap w (a * b) in
    if negb (a =? 0) && negb (b =? 0) && ((total <? a) || (total <? b)) then Err Elimitint
    else Ok total.

(** power, limitint.hpp:452-459 *)
Fixpoint lim_power (w a : N) (e : nat) : res N :=
  match e with
  | O => Ok 1
  | S k => let* r := lim_power w a k in lim_mul w r a
  end.

(** operator /= and %= , limitint.hpp:461-477 *)
Definition lim_div (w a b : N) : res N := if b =? 0 then Err Einfinint else Ok (a / b).
Definition lim_mod (w a b : N) : res N := if b =? 0 then Err Einfinint else Ok (a mod b).

(** operator >>= (U_32), limitint.hpp:479-486 *)
Definition lim_shr (w a bit : N) : res N :=
  if bytesize w * 8 <=? bit then Ok 0 else Ok (N.shiftr a bit).
(** operator >>= (limitint), limitint.hpp:488-492: no check at all *)
Definition lim_shr_lim (w a bit : N) : res N :=
  if w <=? bit then Err UB else Ok (N.shiftr a bit).
(** operator <<= (U_32), limitint.hpp:494-500. The sum "bit + int_tools_higher_power_of_2(field)" is
    computed in the wider of U_32 and B, that is in B. *)
Definition lim_shl (w a bit : N) : res N :=
  if bytesize w * 8 <=? wrap w (bit + hp2 a) then Err Elimitint
  else if w <=? bit then Err UB
  else Ok (wrap w (N.shiftl a bit)).
(** operator <<= (limitint), limitint.hpp:502-508 *)
Definition lim_shl_lim (w a bit : N) : res N := lim_shl w a bit.

(** operator &= |= ^= , limitint.hpp:510-526 *)
Definition lim_and (w a b : N) : N := N.land a b.
Definition lim_or (w a b : N) : N := N.lor a b.
Definition lim_xor (w a b : N) : N := N.lxor a b.

(** limitint_from, limitint.hpp:533-539; [wT] = number of bits of the unsigned argument type *)
Definition lim_from (w wT a : N) : res N :=
  if (wT <=? w) || (a <=? 2 ^ w - 1) then Ok (wrap w a) else Err Elimitint.

(** limitint_unstack_to, limitint.hpp:556-576: conversions (B)(step) and (T)(field) wrap.
    [maxT] = max_val_of(T), [wT] the number of bits of T. *)
Definition lim_unstack (w wT maxT field a : N) : N * N :=
  let step := maxT - a in
  if (field <? wrap w step) && (wrap wT field <? step)
  then (0, wrap wT (a + field))
  else (Z.to_N ((Z.of_N field - Z.of_N step) mod 2 ^ Z.of_N w)%Z, maxT).

(** operator [] , limitint.hpp:591-603 *)
Definition lim_index (w a : N) (pos : nat) : N := N.land (Nat.iter pos (fun t => N.shiftr t 8) a) 255.

(** dump, limitint.hpp:314-407 *)
Definition lim_dump (w field : N) : list N :=
  let sig := strip0 (be_bytes (N.to_nat (bytesize w)) field) in
  let width := N.of_nat (length sig) in
  let width := if width =? 0 then 1 else width in
  let justification := width mod TG in
  let width := width / TG in
  let width := if justification =? 0 then width else width + 1 in
  let pos := width mod 8 in
  let width := width / 8 in
  let '(width, last_width) :=
    if pos =? 0 then (width - 1, N.shiftr 128 7) else (width, N.shiftr 128 (N.land 65535 pos - 1)) in
  repeat 0 (N.to_nat width)
  ++ [last_width]
  ++ (if justification =? 0 then [] else repeat 0 (N.to_nat (TG - justification)))
  ++ (match sig with [] => [0] | _ => sig end).

(** build_from_file, limitint.hpp:258-312. The return value of the second x.read() is ignored:
    the bytes that could not be read stay at zero. On a little-endian host the [skip] first bytes
    of the field are then swapped; on a big-endian host the field is shifted right by
    (bytesize - skip)*8. Both give the big-endian value of the [skip] bytes. *)
Fixpoint lim_read_from (w : N) (f : list N) (skip : N) : res (N * list N) :=
  match f with
  | [] => Err Erange
  | a :: f' =>
    if a =? 0 then let* skip := lim_add w skip 1 in lim_read_from w f' skip
    else
      let bf := expand_byte a in
      let cnt := fold_left N.add bf 0 in
      if negb (cnt =? 1) then Err Erange
      else
        let pos := first_one bf + 1 in
        let* skip := lim_mul w skip 8 in
        let* skip := lim_add w skip pos in
        let* skip := lim_mul w skip TG in
        if bytesize w <? skip then Err Elimitint
        else
          let n := N.to_nat skip in
          let data := firstn n f' in
          let data := data ++ repeat 0 (n - length data) in
          Ok (inf_value data, skipn n f')
  end.
Definition lim_read (w : N) (f : list N) : res (N * list N) := lim_read_from w f 0.
