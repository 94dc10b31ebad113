(** * Model of the parsing of an overwriting policy given on the command line (src/dar_suite/crit_action_cmd_line.cpp)

    Strings are lists of character codes. [conv] stands for line_tools_convert_date (calendar dates), which depends on the clock and
    the time zone: it is a parameter. The recursion is bounded by [n] ([Fuel]); every call is on a strictly shorter string. *)
From Verif Require Import Base NumModel InfinintModel DatetimeModel DeciModel CrcModel DbModel CritModel.
Open Scope N_scope.

(** crit_action_canonize_string, crit_action_cmd_line.cpp:35-51 *)
Definition canonize (s : list N) : list N := filter (fun c => negb ((c =? 32) || (c =? 13) || (c =? 10) || (c =? 9))) s.

(** line_tools_find_first_char_out_of_parenth, line_tools.cpp:288-312: what precedes and what follows the character found *)
Fixpoint find_out (c : N) (parenth : N) (s : list N) : res (option (list N * list N)) :=
  match s with
  | [] => Ok None
  | x :: r =>
    if (x =? c) && (parenth =? 0) then Ok (Some ([], r))
    else
      let* p := if x =? 40 then Ok (parenth + 1)
                else if x =? 41 then (if 0 <? parenth then Ok (parenth - 1) else Err Erange)
                else Ok parenth in
      let* f := find_out c p r in
      Ok (match f with Some (a, b) => Some (x :: a, b) | None => None end)
  end.

(** the atomic operators, crit_action_cmd_line.cpp:455-513 *)
Definition atom (h : N) (x : N) : option crit :=
  if x =? 73 then Some C_is_inode else if x =? 68 then Some C_is_dir else if x =? 70 then Some C_is_file
  else if x =? 72 then Some C_hardlinked else if x =? 65 then Some C_new_hardlinked else if x =? 82 then Some (C_data_recent h)
  else if x =? 66 then Some C_data_bigger else if x =? 83 then Some C_data_saved else if x =? 89 then Some C_dirty
  else if x =? 88 then Some C_sparse else if x =? 76 then Some C_sig else if x =? 80 then Some C_patch
  else if x =? 69 then Some C_same_data else if x =? 101 then Some C_EA_present else if x =? 114 then Some (C_EA_recent h)
  else if x =? 109 then Some C_more_EA else if x =? 98 then Some C_EA_bigger else if x =? 115 then Some C_EA_saved
  else if x =? 84 then Some C_same_type else None.
(** the argument of R(..) and r(..), crit_action_cmd_line.cpp:405-425 *)
Definition date_arg (conv : list N -> res N) (s : list N) : res N :=
  match string_to_int s with Err Edeci => conv s | r => r end.

(** criterium_create_from_string, crit_action_cmd_line.cpp:256-537. crit_or derives from crit_and (criterium.hpp, class crit_or): the
    dynamic_cast of line 331 also accepts a crit_or. *)
Fixpoint parse_crit (conv : list N -> res N) (h : N) (n : nat) (s : list N) : res crit :=
  match n with
  | O => Err Fuel
  | S n =>
    match s with
    | [] => Err Erange
    | x :: r =>
      let* f := find_out 124 0 s in
      match f with
      | Some (s1, s2) =>
        let* a := parse_crit conv h n s1 in
        let* b := parse_crit conv h n s2 in
        Ok (match b with C_or l => C_or (a :: l) | _ => C_or [a; b] end)
      | None =>
        let* f := find_out 38 0 s in
        match f with
        | Some (s1, s2) =>
          let* a := parse_crit conv h n s1 in
          let* b := parse_crit conv h n s2 in
          Ok (match b with C_and l | C_or l => C_and (a :: l) | _ => C_and [a; b] end)
        | None =>
          if (x =? 40) && (last s 0 =? 41) then parse_crit conv h n (removelast r)
          else if x =? 33 then let* c := parse_crit conv h n r in Ok (C_not c)
          else if x =? 126 then let* c := parse_crit conv h n r in Ok (C_invert c)
          else if (4 <=? length s)%nat && (hd 0 r =? 40) && (last s 0 =? 41) then
            if (x =? 82) || (x =? 114) then
              let* d := date_arg conv (removelast (tl r)) in
              Ok (if x =? 82 then C_data_recent_to d h else C_EA_recent_to d h)
            else Err Erange
          else match r with
          | [] => match atom h x with Some c => Ok c | None => Err Erange end
          | _ => Err Erange
          end
        end
      end
    end
  end.

(** the actions, crit_action_cmd_line.cpp:176-234 *)
Definition data_letter (x : N) : option adata :=
  if x =? 80 then Some D_preserve else if x =? 79 then Some D_overwrite else if x =? 83 then Some D_preserve_mark
  else if x =? 84 then Some D_overwrite_mark else if x =? 82 then Some D_remove else if x =? 42 then Some D_undefined
  else if x =? 65 then Some D_ask else None.
Definition ea_letter (x : N) : option aea :=
  if x =? 112 then Some A_preserve else if x =? 111 then Some A_overwrite else if x =? 115 then Some A_preserve_mark
  else if x =? 116 then Some A_overwrite_mark else if x =? 109 then Some A_merge_preserve else if x =? 110 then Some A_merge_overwrite
  else if x =? 114 then Some A_clear else if x =? 42 then Some A_undefined else if x =? 97 then Some A_ask else None.

(** crit_action_create_from_string, crit_action_cmd_line.cpp:54-254. In the conditional case [it] and [fin] are both searched from the
    beginning of the string, and string(it + 2, fin) is taken: were fin before it + 2 the C++ would be undefined. *)
Fixpoint parse_policy (conv : list N -> res N) (h : N) (n : nat) (s : list N) : res policy :=
  match n with
  | O => Err Fuel
  | S n =>
    match s with
    | [] => Err Erange
    | x :: r =>
      let* f := find_out 59 0 s in
      match f with
      | Some (s1, s2) =>
        let* a := parse_policy conv h n s1 in
        let* b := parse_policy conv h n s2 in
        Ok (match b with P_chain l => P_chain (a :: l) | _ => P_chain [a; b] end)
      | None =>
        if x =? 123 then
          let* f := find_out 125 0 s in
          match f with
          | None => Err Erange
          | Some (s1, s2) =>                        (* s = s1 } s2 *)
            if negb (hd 0 s2 =? 91) then Err Erange
            else
              let* g := find_out 93 0 s in
              match g with
              | None => Err Erange
              | Some (t1, t2) =>                    (* s = t1 ] t2 *)
                let* c := parse_crit conv h (S (length s)) (tl s1) in
                if (length t1 <? length s1 + 2)%nat then Err UB
                else
                  let* go_true := parse_policy conv h n (skipn (length s1 + 2) t1) in
                  let* go_false := match t2 with [] => Ok (P_const D_undefined A_undefined) | _ => parse_policy conv h n t2 end in
                  Ok (P_test c go_true go_false)
              end
          end
        else match r with
        | [y] => match data_letter x with
                 | None => Err Erange
                 | Some d => match ea_letter y with None => Err Erange | Some e => Ok (P_const d e) end
                 end
        | _ => Err Erange
        end
      end
    end
  end.
(** the policy of option -/, command_line.cpp:1885 *)
Definition policy_of_string (conv : list N -> res N) (h : N) (s : list N) : res policy :=
  let s := canonize s in parse_policy conv h (S (length s)) s.
