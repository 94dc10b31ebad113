(** * Model of class datetime (src/libdar/datetime.hpp, datetime.cpp) and of the change detection built on it.

    infinint is seen as N (C03); the recovery from Elimitint in build() is for limited integers only and is left out.
    time_t arguments are non-negative. *)
From Verif Require Import Base NumModel InfinintModel.
Open Scope N_scope.

(** enum time_unit, datetime.hpp:60: smallest first *)
Inductive time_unit := tu_ns | tu_us | tu_s.
Definition rank (u : time_unit) : N := match u with tu_ns => 0 | tu_us => 1 | tu_s => 2 end.
Definition unit_lt (a b : time_unit) : bool := rank a <? rank b.
Definition unit_eqb (a b : time_unit) : bool := rank a =? rank b.
(** min/max, datetime.cpp:389-403 *)
Definition unit_max (a b : time_unit) : time_unit := if unit_lt a b then b else a.

(** fields, datetime.hpp:151-152 *)
Record datetime := DT { val : N; uni : time_unit }.

(** get_scaling_factor, datetime.cpp:435-464 *)
Definition scaling (source dest : time_unit) : res N :=
  if unit_lt source dest then Err Ebug
  else match source, dest with
  | tu_s, tu_s => Ok 1
  | tu_s, tu_us => Ok (1000 * 1000)
  | tu_s, tu_ns => Ok (1000 * 1000 * 1000)
  | tu_us, tu_us => Ok 1
  | tu_us, tu_ns => Ok 1000
  | tu_ns, tu_ns => Ok 1
  | _, _ => Err Ebug
  end.

(** reduce_to_largest_unit, datetime.cpp:218-264 *)
Definition reduce_us (v : N) : res datetime :=
  let* f := scaling tu_s tu_us in
  let* '(q, r) := neuclide v f in
  if negb (r =? 0) then Ok (DT v tu_us) else Ok (DT q tu_s).
Definition reduce_unit (d : datetime) : res datetime :=
  if val d =? 0 then Ok (DT 0 tu_s)
  else match uni d with
  | tu_ns =>
    let* f := scaling tu_us tu_ns in
    let* '(q, r) := neuclide (val d) f in
    if negb (r =? 0) then Ok d else reduce_us q
  | tu_us => reduce_us (val d)
  | tu_s => Ok d
  end.

(** datetime(infinint), datetime.hpp:63 *)
Definition dt_seconds (v : N) : datetime := DT v tu_s.
(** build, datetime.cpp:275-319, and datetime(time_t, time_t, unit), datetime.cpp:39-42 *)
Definition dt_build (sec sub : N) (u : time_unit) : res datetime :=
  let* v := if unit_eqb tu_s u then Ok sec else let* f := scaling tu_s u in Ok (sec * f + sub) in
  reduce_unit (DT v u).

(** operator <, datetime.cpp:49-71 *)
Definition dt_lt (a b : datetime) : res bool :=
  if negb (unit_lt (uni b) (uni a)) && (val a <? val b) then Ok true
  else if unit_lt (uni a) (uni b) then
    let* f := scaling (uni b) (uni a) in
    let* '(q, _) := neuclide (val a) f in
    Ok (q <? val b)
  else if unit_eqb (uni a) (uni b) then Ok (val a <? val b)
  else
    let* f := scaling (uni a) (uni b) in
    let* '(q, r) := neuclide (val b) f in
    Ok (((val a =? q) && negb (r =? 0)) || (val a <? q)).
(** operator ==, datetime.cpp:73-77 *)
Definition dt_eq (a b : datetime) : bool := unit_eqb (uni a) (uni b) && (val a =? val b).
(** operator -=, datetime.cpp:79-102 *)
Definition dt_sub (a b : datetime) : res datetime :=
  let* a := if unit_lt (uni b) (uni a) then let* f := scaling (uni a) (uni b) in Ok (DT (val a * f) (uni b)) else Ok a in
  let* v := if unit_eqb (uni b) (uni a) then (if val a <? val b then Err Ebug else nsub (val a) (val b))
            else let* f := scaling (uni b) (uni a) in
                 (if val a <? val b * f then Err Ebug else nsub (val a) (val b * f)) in
  reduce_unit (DT v (uni a)).
(** operator +=, datetime.cpp:104-121 *)
Definition dt_add (a b : datetime) : res datetime :=
  let* a := if unit_lt (uni b) (uni a) then let* f := scaling (uni a) (uni b) in Ok (DT (val a * f) (uni b)) else Ok a in
  let* v := if unit_eqb (uni b) (uni a) then Ok (val a + val b)
            else let* f := scaling (uni b) (uni a) in Ok (val a + val b * f) in
  reduce_unit (DT v (uni a)).
(** val expressed in the larger unit tu *)
Definition to_unit (d : datetime) (tu : time_unit) : res N :=
  if unit_lt (uni d) tu then
    let* f := scaling tu (uni d) in let* '(q, _) := neuclide (val d) f in Ok q
  else Ok (val d).
(** loose_equal, datetime.cpp:123-144 *)
Definition loose_equal (a b : datetime) : res bool :=
  if unit_eqb (uni a) (uni b) then Ok (val a =? val b)
  else
    let tu := unit_max (uni a) (uni b) in
    let* v1 := to_unit a tu in let* v2 := to_unit b tu in Ok (v1 =? v2).
(** loose_diff, datetime.cpp:146-182; [cap] is the precision of the system, chosen at compilation *)
Definition loose_diff (cap : time_unit) (a b : datetime) : res datetime :=
  let tu := unit_max (uni a) (uni b) in
  let tu := if unit_lt tu cap then cap else tu in
  let* v := to_unit a tu in
  let* aux := to_unit b tu in
  if v <? aux then Err Ebug else let* v := nsub v aux in reduce_unit (DT v tu).
(** get_value(infinint&, infinint&, unit), datetime.cpp:266-273 *)
Definition get_value (d : datetime) (u : time_unit) : res (N * N) :=
  let* f := scaling tu_s (uni d) in
  let* '(sec, sub) := neuclide (val d) f in
  let* sub := if unit_lt u (uni d) then let* g := scaling (uni d) u in Ok (sub * g) else Ok sub in
  let* sub := if unit_lt (uni d) u then let* g := scaling u (uni d) in let* '(q, _) := neuclide sub g in Ok q else Ok sub in
  Ok (sec, sub).
(** get_second_value, datetime.hpp:104 *)
Definition second_value (d : datetime) : res N := let* '(s, _) := get_value d (uni d) in Ok s.

(** time_unit_to_char / char_to_time_unit, datetime.cpp:405-433 *)
Definition unit_char (u : time_unit) : N := match u with tu_ns => 110 | tu_us => 117 | tu_s => 115 end.
Definition char_unit (c : N) : res time_unit :=
  if c =? 110 then Ok tu_ns else if c =? 115 then Ok tu_s else if c =? 117 then Ok tu_us else Err Erange.
(** dump, datetime.cpp:350-366 *)
Definition dt_dump (d : datetime) : res (list N) :=
  let* '(sec, sub) := get_value d (uni d) in
  Ok (unit_char (uni d) :: dumpN sec ++ (if unit_lt (uni d) tu_s then dumpN sub else [])).
(** read, datetime.cpp:368-387: before format 9 only seconds. At end of file the unit character is read uninitialised: the
    integer that follows is then missing too, so whatever its value Erange is thrown. *)
Definition dt_read (ver : N) (f : list N) : res (datetime * list N) :=
  let* '(u, f) := if ver <? 9 then Ok (tu_s, f)
                  else match read1 f with
                  | None => Err Erange
                  | Some (c, f) => let* u := char_unit c in Ok (u, f)
                  end in
  let* '(sec, f) := readN f in
  let* '(sub, f) := if unit_lt u tu_s then readN f else Ok (0, f) in
  let* d := dt_build sec sub u in
  Ok (d, f).

(** tools_is_equal_with_hourshift, tools.cpp:726-749 *)
Definition equal_with_hourshift (cap : time_unit) (hourshift : N) (date1 date2 : datetime) : res bool :=
  let* gt := dt_lt date2 date1 in
  let* delta := if gt : bool then loose_diff cap date1 date2 else loose_diff cap date2 date1 in
  if val delta =? 0 then Ok true
  else if negb (unit_eqb (uni delta) tu_s) then Ok false
  else
    let* d := second_value delta in
    let* '(num, rest) := neuclide d 3600 in
    if negb (rest =? 0) then Ok false else Ok (num <=? hourshift).

(** enum comparison_fields, shortened names *)
Inductive fields := F_all | F_ignore_owner | F_mtime | F_inode_type.
(** the part of an inode that has_changed_since looks at; size is that of a plain file (cat_file.cpp:490-497), 0 otherwise *)
Record inode := { i_uid : N; i_gid : N; i_perm : N; i_mod : datetime; i_size : N }.
(** cat_inode::is_more_recent_than, cat_inode.cpp:370-373 *)
Definition more_recent (cap : time_unit) (this ref : inode) (hourshift : N) : res bool :=
  let* lt := dt_lt (i_mod ref) (i_mod this) in
  if lt : bool then let* e := equal_with_hourshift cap hourshift (i_mod ref) (i_mod this) in Ok (negb e) else Ok false.
(** cat_inode::has_changed_since, cat_inode.cpp:375-381 *)
Definition has_changed_since (cap : time_unit) (this ref : inode) (hourshift : N) (what : fields) : res bool :=
  let* d := match what with
    | F_inode_type => Ok false
    | _ => if negb (hourshift =? 0) then let* e := equal_with_hourshift cap hourshift (i_mod ref) (i_mod this) in Ok (negb e)
           else let* e := loose_equal (i_mod ref) (i_mod this) in Ok (negb e)
    end in
  Ok (d || (match what with F_all => negb (i_uid this =? i_uid ref) | _ => false end)
        || (match what with F_all => negb (i_gid this =? i_gid ref) | _ => false end)
        || (match what with F_mtime | F_inode_type => false | _ => negb (i_perm this =? i_perm ref) end)).
(** cat_file::has_changed_since, cat_file.cpp:490-497 *)
Definition file_has_changed_since (cap : time_unit) (this ref : inode) (hourshift : N) (what : fields) : res bool :=
  let* c := has_changed_since cap this ref hourshift what in
  if c : bool then Ok true else Ok (negb (i_size this =? i_size ref)).
