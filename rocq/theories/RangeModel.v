(** * Model of class range (src/libdar/range.hpp, range.cpp): sets of integers kept as a list of segments. *)
From Verif Require Import Base DeciModel.
Open Scope N_scope.

(** class segment, range.hpp:75-103 *)
Record segment := Seg { low : N; high : N }.
(** operator <, range.hpp:87: the two segments cannot be replaced by a single one *)
Definition seg_lt (a b : segment) : bool := high a + 1 <? low b.
(** overlaps_with, range.hpp:83 *)
Definition seg_overlaps (a b : segment) : bool := negb (seg_lt b a) && negb (seg_lt a b).
(** operator <=, range.hpp:93; >= is the converse (range.hpp:94) *)
Definition seg_le (a b : segment) : bool := (low b <? low a) && (low a <=? high b + 1) && (high b <? high a).
(** contains, range.hpp:95 *)
Definition seg_contains (a b : segment) : bool := (low a <=? low b) && (high b <=? high a).
(** merge_with, range.cpp:97-111 *)
Definition seg_merge (a b : segment) : res segment :=
  if seg_le a b then Ok (Seg (low b) (high a))
  else if seg_le b a then Ok (Seg (low a) (high b))
  else if seg_contains a b then Ok a
  else if seg_contains b a then Ok b
  else Err Ebug.

Definition range := list segment.
(** range(), range(low, high), range.hpp:45-46 *)
Definition range_empty : range := [].
Definition range_of (l h : N) : range := [Seg l h].

(** one turn of the outer loop of operator +=, range.cpp:36-65 *)
Fixpoint range_insert (parts : range) (s : segment) : res range :=
  match parts with
  | [] => Ok [s]
  | it :: r =>
    if seg_lt it s then let* r' := range_insert r s in Ok (it :: r')
    else if seg_lt s it then Ok (s :: it :: r)
    else if negb (seg_overlaps it s) then Err Ebug
    else
      let* m := seg_merge it s in
      match r with
      | [] => Ok [m]
      | next :: r' =>
        if seg_overlaps m next then let* m' := seg_merge m next in Ok (m' :: r')
        else Ok (m :: next :: r')
      end
  end.
(** operator +=, range.cpp:31-66, and + (range.hpp:54) *)
Fixpoint range_add (parts : range) (ref : range) : res range :=
  match ref with
  | [] => Ok parts
  | s :: ref' => let* p := range_insert parts s in range_add p ref'
  end.
(** segment::display, range.cpp:113-128; '-' is 45 *)
Definition seg_display (s : segment) : res (list N) :=
  let* dl := int_to_string (low s) in
  if low s =? high s then Ok dl
  else let* dh := int_to_string (high s) in Ok (dl ++ [45] ++ dh).
(** display, range.cpp:68-84; ',' is 44 *)
Fixpoint range_display (p : range) : res (list N) :=
  match p with
  | [] => Ok []
  | s :: r =>
    let* d := seg_display s in
    match r with
    | [] => Ok d
    | _ :: _ => let* e := range_display r in Ok (d ++ [44] ++ e)
    end
  end.
