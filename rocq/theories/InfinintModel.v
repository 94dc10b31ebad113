(** * Model of class infinint (src/libdar/real_infinint.cpp, real_infinint.hpp).

    The [storage *field] member (storage.hpp) is modelled by the flat list of its bytes,
    most significant first, from [field->begin()] to [field->end()]; StorageModel.v
    studies the chunked storage itself.  Loops that run from rbegin() to rend() are written
    on the reversed list. U_I / U_32 intermediate values of the byte loops never exceed
    256*256+256 and are modelled by unbounded N. *)
From Verif Require Import Base.
Open Scope N_scope.

(** An infinint value: bytes, most significant first. *)
Definition infinint := list N.

Definition TG : N := 4.          (* real_infinint.hpp:153  static constexpr int TG = 4 *)
Definition ZEROED_SIZE : N := 50. (* real_infinint.hpp / limitint.hpp: #define ZEROED_SIZE 50 *)

(** infinint::reduce, real_infinint.cpp:613-651. Strip the leading zero bytes, always keep one
    byte. Simplification: the source removes them by groups of at most UINT_MAX, the
    result of the do/while loop is the same. *)
Fixpoint strip0 (l : list N) : list N :=
  match l with
  | [] => []
  | b :: r => if b =? 0 then strip0 r else b :: r
  end.
Definition reduce (a : infinint) : infinint :=
  match strip0 a with [] => [0] | l => l end.

(** infinint::is_zero, real_infinint.cpp:549-560 *)
Definition is_zero (a : infinint) : bool := forallb (fun b => b =? 0) a.

(** Reduction of an operand "only if its first byte is zero", used by dump (:115),
    difference (:572-575) and euclide (:835-840). *)
Definition reduce_if (a : infinint) : infinint :=
  match a with 0 :: _ => reduce a | _ => a end.

(** infinint::make_at_least_as_wider_as, real_infinint.cpp:676-682 *)
Definition widen (a ref : infinint) : infinint :=
  repeat 0 (length ref - length a)%nat ++ a.

(** infinint::operator += , real_infinint.cpp:188-233 (loop on bytes from the right) *)
Fixpoint add_loop (res arg : list N) (retenue : N) : list N * N :=
  match res with
  | [] => ([], retenue)
  | r :: rs =>
    match arg with
    | [] =>
      if retenue =? 0 then (res, 0)
      else let somme := r + retenue in
           let '(l, c) := add_loop rs [] (N.shiftr somme 8) in
           (N.land somme 255 :: l, c)
    | x :: xs =>
      let somme := r + x + retenue in
      let '(l, c) := add_loop rs xs (N.shiftr somme 8) in
      (N.land somme 255 :: l, c)
    end
  end.
Definition inf_add (a arg : infinint) : infinint :=
  let a' := widen a arg in
  let '(l, retenue) := add_loop (rev a') (rev arg) 0 in
  if retenue =? 0 then rev l else retenue :: rev l.

(** infinint::difference, real_infinint.cpp:562-605: only the sign of the result matters *)
Fixpoint lex_diff (a b : list N) : Z :=
  match a, b with
  | [], [] => 0
  | _ :: _, [] => 1
  | [], _ :: _ => -1
  | x :: a', y :: b' => if x =? y then lex_diff a' b' else (Z.of_N x - Z.of_N y)%Z
  end.
Definition difference (a b : infinint) : Z :=
  let a := reduce_if a in
  let b := reduce_if b in
  if (length a <? length b)%nat then (-1)%Z
  else if (length b <? length a)%nat then 1%Z
  else lex_diff a b.
(** OPERATOR(OP) macro, real_infinint.hpp:181-191 *)
Definition inf_lt a b := (difference a b <? 0)%Z.
Definition inf_gt a b := (difference a b >? 0)%Z.
Definition inf_le a b := (difference a b <=? 0)%Z.
Definition inf_ge a b := (difference a b >=? 0)%Z.
Definition inf_eq a b := (difference a b =? 0)%Z.
Definition inf_ne a b := negb (difference a b =? 0)%Z.

(** infinint::operator -= , real_infinint.cpp:235-289 *)
Fixpoint sub_loop (res arg : list N) (retenue : Z) : list N :=
  match res with
  | [] => []
  | r :: rs =>
    let step (somme : Z) (xs : list N) :=
      if (somme <? 0)%Z then
        let s := (- somme)%Z in
        let tmp := Z.land s 255 in
        let ret := Z.shiftr s 8 in
        if (tmp =? 0)%Z then 0 :: sub_loop rs xs ret
        else Z.to_N (256 - tmp) :: sub_loop rs xs (ret + 1)
      else Z.to_N somme :: sub_loop rs xs 0 in
    match arg with
    | [] => if (retenue =? 0)%Z then res else step (Z.of_N r - retenue)%Z []
    | x :: xs => step (Z.of_N r - Z.of_N x - retenue)%Z xs
    end
  end.
Definition inf_sub (a arg : infinint) : res infinint :=
  if inf_lt a arg then Err Erange
  else
    (* the comparison just made has reduced both operands (const_cast in difference) *)
    let a := reduce_if a in
    let arg := reduce_if arg in
    Ok (rev (sub_loop (rev a) (rev arg) 0)).

(** infinint::operator *= (unsigned char), real_infinint.cpp:291-326 *)
Fixpoint mulb_loop (l : list N) (arg retenue : N) : list N * N :=
  match l with
  | [] => ([], retenue)
  | b :: r =>
    let produit := b * arg + retenue in
    let '(l', c) := mulb_loop r arg (N.shiftr produit 8) in
    (N.land produit 255 :: l', c)
  end.
Definition inf_mulb (a : infinint) (arg : N) : infinint :=
  let '(l, retenue) := mulb_loop (rev a) arg 0 in
  let r := if retenue =? 0 then rev l else retenue :: rev l in
  if arg =? 0 then reduce r else r.

(** int_tools_contract_byte, int_tools.cpp:57-69, on the bits most significant first *)
Definition contract_byte (bf : list N) : N := fold_left (fun a b => a * 2 + b) bf 0.
(** int_tools_expand_byte, int_tools.cpp:46-55 *)
Definition expand_byte (a : N) : list N :=
  map (fun i => N.shiftr (N.land a (N.shiftr 128 (N.of_nat i))) (7 - N.of_nat i)) (seq 0 8).
(** the mask built by the for loops of real_infinint.cpp:423-425 and 494-496 *)
Definition low_mask (k : N) : N :=
  contract_byte (map (fun i => if N.of_nat i <? k then 0 else 1) (seq 0 8)).

(** the bit shifting loop of operator <<= (real_infinint.cpp:498-506) and
    operator >>= (:427-436): every byte keeps its high part shifted right by [sr],
    its low part (mask) goes to the next byte shifted left by [sl]. *)
Fixpoint shift_loop (l : list N) (mask sl sr r2 : N) : list N :=
  match l with
  | [] => []
  | b :: r =>
    let r1 := N.land (N.shiftl (N.land b mask) sl) 255 in
    N.lor (N.shiftr b sr) r2 :: shift_loop r mask sl sr r1
  end.

(** infinint::operator <<= (U_32), real_infinint.cpp:463-511 *)
Definition inf_shl (a : infinint) (bit : N) : infinint :=
  if is_zero a then a
  else
    let byte := bit / 8 in
    let bit := bit mod 8 in
    let byte := if bit =? 0 then byte else byte + 1 in
    let a := a ++ repeat 0 (N.to_nat byte) in
    if bit =? 0 then a
    else shift_loop a (low_mask bit) bit (8 - bit) 0.

(** infinint::operator >>= (U_32), real_infinint.cpp:401-442 *)
Definition inf_shr (a : infinint) (bit : N) : infinint :=
  let byte := bit / 8 in
  let bit := bit mod 8 in
  if N.of_nat (length a) <=? byte then [0]
  else
    let a := firstn (length a - N.to_nat byte) a in
    if bit =? 0 then a
    else shift_loop a (low_mask (8 - bit)) (8 - bit) bit 0.

(** infinint::operator *= (const infinint &), real_infinint.cpp:328-348 *)
Definition inf_mul (a arg : infinint) : infinint :=
  fold_left (fun ret b => inf_add (inf_shl ret 8) (inf_mulb arg b)) a [0].

(** operator &= |= ^=, real_infinint.cpp:350-399, on reversed lists *)
Fixpoint zip_loop (f : N -> N -> N) (rest : N -> N) (res arg : list N) : list N :=
  match res with
  | [] => []
  | r :: rs => match arg with
               | [] => map rest res
               | x :: xs => f r x :: zip_loop f rest rs xs
               end
  end.
Definition inf_and (a arg : infinint) : infinint :=
  let a' := widen a arg in
  let l := rev (zip_loop N.land (fun _ => 0) (rev a') (rev arg)) in
  if (length arg <? length a')%nat then reduce l else l.
Definition inf_or (a arg : infinint) : infinint :=
  rev (zip_loop N.lor (fun r => r) (rev (widen a arg)) (rev arg)).
Definition inf_xor (a arg : infinint) : infinint :=
  rev (zip_loop N.lxor (fun r => r) (rev (widen a arg)) (rev arg)).

(** template infinint_from(T a), real_infinint.hpp:266-317: the bytes of the machine
    integer, most significant first, without leading zeros but at least one byte.
    [size] = sizeof(T). *)
Fixpoint be_bytes (size : nat) (a : N) : list N :=
  match size with
  | O => []
  | S k => be_bytes k (a / 256) ++ [a mod 256]
  end.
Definition inf_from (size : nat) (a : N) : infinint :=
  match strip0 (be_bytes size a) with [] => [0] | l => l end.
Definition inf_of (a : N) : infinint := inf_from 8 a. (* size_t, 8 bytes *)

(** euclide, real_infinint.cpp:819-862. Inner subtraction loop, then digit loop. *)
Fixpoint eu_sub (fuel : nat) (a r q : infinint) : res (infinint * infinint) :=
  match fuel with
  | O => Err Fuel
  | S k =>
    if inf_le r a then
      let* a' := inf_sub a r in eu_sub k a' r (inf_add q (inf_of 1))
    else Ok (a, q)
  end.
Fixpoint eu_loop (fuel : nat) (a b r q : infinint) : res (infinint * infinint) :=
  match fuel with
  | O => Err Fuel
  | S k =>
    if inf_lt b r then
      let r' := inf_shr r 8 in
      let q' := inf_shl q 8 in
      let* '(a', q'') := eu_sub 257 a r' q' in
      eu_loop k a' b r' q''
    else Ok (q, a)
  end.
Fixpoint eu_grow (fuel : nat) (a r : infinint) : res infinint :=
  match fuel with
  | O => Err Fuel
  | S k => if (length r <=? length a)%nat then eu_grow k a (inf_shl r 8) else Ok r
  end.
(** returns (quotient, remainder) *)
Definition euclide (a b : infinint) : res (infinint * infinint) :=
  if is_zero b then Err Einfinint
  else if inf_lt a b then Ok ([0], a)
  else
    let a := reduce_if a in
    let r := reduce_if b in
    let* r := eu_grow (S (length a)) a r in
    eu_loop (S (length r)) a b r [0].

Definition inf_div a b := let* '(q, _) := euclide a b in Ok q.   (* :757-763 *)
Definition inf_mod a b := let* '(_, r) := euclide a b in Ok r.   (* :765-771 *)

(** operator >>= (infinint) and <<= (infinint), real_infinint.cpp:444-461 and 513-527:
    the shift amount is consumed by U_32 chunks through unstack. *)
Definition U32_MAX : N := 4294967295.
Fixpoint shift_chunks (f : infinint -> N -> infinint) (fuel : nat) (a : infinint) (n : N) : res infinint :=
  match fuel with
  | O => Err Fuel
  | S k =>
    let d := N.min n U32_MAX in
    let a' := f a d in
    let n' := n - d in
    if N.min n' U32_MAX =? 0 then Ok a' else shift_chunks f k a' n'
  end.
Definition inf_shl_inf a n := shift_chunks inf_shl (N.to_nat (n / U32_MAX + 2)) a n.
Definition inf_shr_inf a n := shift_chunks inf_shr (N.to_nat (n / U32_MAX + 2)) a n.

(** template infinint_unstack_to, real_infinint.hpp:334-366. [maxT] is max_val_of(T),
    [size] is sizeof(T). Returns the remaining infinint and the new value of the argument. *)
Definition inf_unstack (size : nat) (maxT : N) (self : infinint) (v : N) : res (infinint * N) :=
  if maxT <? v then Err UB  (* cannot happen for a value of type T *)
  else
    let step := inf_of (maxT - v) in
    if inf_lt self step then
      let self := reduce_if self in
      (* the loop copies at most sizeof(T) low-order bytes *)
      let transfert := fold_left (fun a b => a * 256 + b) (skipn (length self - size) self) 0 in
      let* z := inf_sub self self in
      Ok (z, v + transfert)
    else
      let* s := inf_sub self step in
      Ok (s, maxT).

(** infinint::operator [], real_infinint.cpp:529-547: byte number [pos] in little endian order *)
Definition inf_index (a : infinint) (pos : nat) : N := nth pos (rev a) 0.

(** infinint::power, real_infinint.hpp:239-246, machine integer exponent *)
Fixpoint inf_power (a : infinint) (e : nat) : infinint :=
  match e with O => inf_of 1 | S k => inf_mul (inf_power a k) a end.

(** infinint::dump, real_infinint.cpp:104-186. The machine-sized quantities width, pos and
    justification are infinints in the source; their arithmetic is that of N (theorem C03). *)
Definition inf_dump (a : infinint) : list N :=
  let a := reduce_if a in
  let width := N.of_nat (length a) in
  let justification := width mod TG in
  let width := width / TG in
  let width := if justification =? 0 then width else width + 1 in
  let pos := width mod 8 in
  let width := width / 8 in
  let '(width, last_width) :=
    if pos =? 0 then (width - 1, N.shiftr 128 7) else (width, N.shiftr 128 (pos - 1)) in
  repeat 0 (N.to_nat width)
  ++ [last_width]
  ++ (if justification =? 0 then [] else repeat 0 (N.to_nat (TG - justification)))
  ++ a.

(** infinint::build_from_file, real_infinint.cpp:54-102, and the storage constructor reading
    from a file, storage.cpp:52-86 (Erange when not enough data). *)
Fixpoint first_one (bf : list N) : N :=
  match bf with [] => 0 | b :: r => if b =? 0 then 1 + first_one r else 0 end.
Fixpoint inf_read_from (f : list N) (skip : N) : res (infinint * list N) :=
  match f with
  | [] => Err Erange
  | a :: f' =>
    if a =? 0 then inf_read_from f' (skip + 1)
    else
      let bf := expand_byte a in
      let cnt := fold_left N.add bf 0 in
      if negb (cnt =? 1) then Err Erange
      else
        let pos := first_one bf + 1 in
        let len := (skip * 8 + pos) * TG in
        let data := firstn (N.to_nat len) f' in
        if N.of_nat (length data) <? len then Err Erange
        else Ok (reduce data, skipn (N.to_nat len) f')
  end.
Definition inf_read (f : list N) : res (infinint * list N) := inf_read_from f 0.

(** [N]-level interface used by the other model files: infinint arithmetic is exact (C03) and
    representation independent (C01), so elsewhere an infinint is an [N]. *)
Definition inf_value (a : infinint) : N := fold_left (fun acc b => acc * 256 + b) a 0.
(** canonical representation of an arbitrary natural number *)
Fixpoint inf_of_N_loop (fuel : nat) (n : N) (acc : list N) : list N :=
  match fuel with
  | O => acc
  | S k => if n =? 0 then acc else inf_of_N_loop k (n / 256) (n mod 256 :: acc)
  end.
Definition inf_of_N (n : N) : infinint :=
  match inf_of_N_loop (N.to_nat (N.size n)) n [] with [] => [0] | l => l end.
Definition dumpN (n : N) : list N := inf_dump (inf_of_N n).
Definition readN (f : list N) : res (N * list N) :=
  let* '(a, r) := inf_read f in Ok (inf_value a, r).

(** The client idiom "v = 0; n.unstack(v); while(v > 0) { use v; v = 0; n.unstack(v); }" found for
    instance in storage.cpp:57-84, generic_file.cpp, null_file.hpp:74-82: drains an infinint by
    chunks of a machine integer; returns the list of the chunks. *)
Fixpoint inf_drain (fuel size : nat) (maxT : N) (a : infinint) : res (list N) :=
  match fuel with
  | O => Err Fuel
  | S k =>
    let* '(a', v) := inf_unstack size maxT a 0 in
    if v =? 0 then Ok []
    else let* l := inf_drain k size maxT a' in Ok (v :: l)
  end.
