(** * ArgModel: sizes, permissions, templates and formulas given by a user

    Models tools_get_extended_size (tools.cpp:1386-1448), tools_substitute and tools_hook_substitute
    (tools.cpp:1450-1506), tools_output2xml (tools.cpp:1592-1623), tools_octal2int and tools_int2octal (tools.cpp:1625-1692),
    delta_sig_block_size::check and calculate (delta_sig_block_size.cpp:56-107), line_tools_split (line_tools.hpp:135-155).
    Strings are lists of codes of characters; integers are those of C03 and C06: exact. *)
From Coq Require Import List String Ascii.
From Verif Require Import Base InfinintModel DeciModel.
Open Scope N_scope.

(** ** tools_get_extended_size: the exponent of the suffix; 'Q' falls in the case of the digits, that does nothing *)
Definition suffix (c : N) : option N :=
  if (c =? 75) || (c =? 107) then Some 1 else if c =? 77 then Some 2 else if c =? 71 then Some 3 else if c =? 84 then Some 4
  else if c =? 80 then Some 5 else if c =? 69 then Some 6 else if c =? 90 then Some 7 else if c =? 89 then Some 8 else if c =? 82 then Some 9
  else if c =? 81 then Some 10 else if (48 <=? c) && (c <=? 57) then Some 0 else None.
Definition ext_size (base : N) (s : list N) : res N :=
  match rev s with
  | [] => Ok 0 (* return false *)
  | c :: r =>
    match suffix c with
    | None => Err Erange
    | Some k =>
      let factor := base ^ k in
      let s' := if negb (factor =? 1) then rev r else s in
      let* v := string_to_int s' in Ok (factor * v)
    end
  end.

(** ** tools_substitute: None stands for Escript *)
Fixpoint sub_loop (corres : N -> option (list N)) (hook ret : list N) : option (list N) :=
  match hook with
  | [] => Some ret
  | c :: r =>
    if c =? 37 then
      match r with
      | [] => None
      | d :: r' => match corres d with None => None | Some v => sub_loop corres r' (ret ++ v) end
      end
    else sub_loop corres r (ret ++ [c])
  end.
Definition substitute (corres : N -> option (list N)) (hook : list N) : option (list N) := sub_loop corres hook [].
Record slice_info := { s_path : list N; s_basename : list N; s_num : list N; s_padded : list N; s_ext : list N; s_context : list N; s_url : list N }.
Definition hook_corres (i : slice_info) (c : N) : option (list N) :=
  if c =? 37 then Some [37] else if c =? 112 then Some (s_path i) else if c =? 98 then Some (s_basename i) else if c =? 110 then Some (s_num i)
  else if c =? 78 then Some (s_padded i) else if c =? 101 then Some (s_ext i) else if c =? 99 then Some (s_context i) else if c =? 117 then Some (s_url i) else None.
Definition hook_substitute (hook : list N) (i : slice_info) : option (list N) := substitute (hook_corres i) hook.

(** ** tools_output2xml *)
Definition str (s : string) : list N := map N_of_ascii (list_ascii_of_string s).
Fixpoint xml_loop (src ret : list N) : list N :=
  match src with
  | [] => ret
  | c :: r =>
    xml_loop r (ret ++ (if c =? 60 then str "&lt;" else if c =? 62 then str "&gt;" else if c =? 38 then str "&amp;" else if c =? 39 then str "&apos;" else if c =? 34 then str "&quot;" else [c]))
  end.
Definition output2xml (src : list N) : list N := xml_loop src [].

(** ** tools_octal2int; w: width of U_I *)
Inductive ostate := o_init | o_octal | o_trail | o_error.
Fixpoint oct_loop (w : N) (p : list N) (st : ostate) (ret : N) : res N :=
  match p with
  | [] => match st with o_error | o_init => Err Erange | _ => Ok ret end
  | c :: r =>
    match st with
    | o_init =>
      if (c =? 32) || (c =? 9) || (c =? 10) || (c =? 13) then oct_loop w r o_init ret
      else if c =? 48 then oct_loop w r o_octal ret else oct_loop w r o_error ret
    | o_octal =>
      if c =? 32 then oct_loop w r o_trail ret
      else if (48 <=? c) && (c <=? 55) then oct_loop w r o_octal ((ret * 8 + c - 48) mod 2 ^ w) else oct_loop w r o_error ret
    | o_trail => if negb (c =? 32) then oct_loop w r o_error ret else oct_loop w r o_trail ret
    | o_error => Err Erange
    end
  end.
Definition octal2int (w : N) (p : list N) : res N := match p with [] => Ok 438 | _ => oct_loop w p o_init 0 end.
(** tools_number_base_decomposition_in_big_endian, tools.hpp:584-598: the unit comes first *)
Fixpoint decomposition (fuel : nat) (n base : N) : list N :=
  match fuel with O => [] | S f => if negb (n =? 0) then (n mod base) :: decomposition f (n / base) base else [] end.
Fixpoint i2o_loop (ds ret : list N) : list N := match ds with [] => ret | d :: r => i2o_loop r ([48 + d] ++ ret) end.
Definition int2octal (p : N) : list N := [48] ++ i2o_loop (decomposition (S (N.size_nat p)) p 8) [].

(** ** delta_sig_block_size *)
Fixpoint log2_loop (fuel : nat) (tmp ret : N) : N := match fuel with O => ret | S f => if tmp =? 0 then ret else log2_loop f (N.shiftr tmp 1) (ret + 1) end.
Definition upper_log2 (n : N) : N := log2_loop (S (N.size_nat n)) n 0.
Definition lower_exp2 (n : N) : N := N.shiftl 1 n.
Definition square_root (n : N) : N := lower_exp2 (upper_log2 n / 2).
Definition cube_root (n : N) : N := lower_exp2 (upper_log2 n / 3).
Inductive fs_function := fixed | linear | log2 | root2 | root3.
Record formula := { func : fs_function; multiplier : N; divisor : N; min_len : N; max_len : N }.
Definition check (d : formula) : res unit :=
  if divisor d =? 0 then Err Erange else if negb (max_len d =? 0) && (max_len d <? min_len d) then Err Erange else Ok tt.
(** umax: the largest U_I *)
Definition calculate (umax : N) (d : formula) (filesize : N) : res N :=
  let val := match func d with
             | fixed => multiplier d | linear => multiplier d * filesize | log2 => multiplier d * upper_log2 filesize
             | root2 => multiplier d * square_root filesize | root3 => multiplier d * cube_root filesize end in
  if divisor d =? 0 then Err Einfinint
  else
    let ret := N.min (val / divisor d) umax in
    let ret := if ret <? min_len d then min_len d else ret in
    Ok (if (0 <? max_len d) && (max_len d <? ret) then max_len d else ret).

(** ** line_tools_split; cur: from be to ne *)
Fixpoint split_loop (sep : N) (v cur : list N) (out : list (list N)) : list (list N) :=
  match v with
  | [] => match cur with [] => out | _ => out ++ [cur] end
  | c :: r => if negb (c =? sep) then split_loop sep r (cur ++ [c]) out else split_loop sep r [] (out ++ [cur])
  end.
Definition split (sep : N) (v : list N) : list (list N) := split_loop sep v [] [].
