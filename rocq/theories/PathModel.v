(** * Model of class path (src/libdar/path.hpp, path.cpp).

    Strings are lists of character codes, without NUL (strncmp of path.cpp:241 stops at one). The reading cursor
    (reset_read/read_subdir) just enumerates [dirs] and is left out; only the case sensitive comparison is modelled. *)
From Verif Require Import Base.
Open Scope N_scope.
Definition str := list N.
Definition SLASH : N := 47.
Definition COLON : N := 58.
Definition dot : str := [46].
Definition dotdot : str := [46; 46].
Fixpoint str_eqb (a b : str) : bool :=
  match a, b with
  | [], [] => true
  | x :: a', y :: b' => (x =? y) && str_eqb a' b'
  | _, _ => false
  end.

(** path.hpp:181-184 *)
Record path := Path { dirs : list str; relative : bool; undisclosed : bool }.

(** path_split, path.cpp:341-397; [cur] holds the characters between bk and it, last first *)
Fixpoint split_loop (agg : str) (rest : str) (cur : str) (splitted : list str) : list str :=
  match rest with
  | [] => match cur with [] => splitted | _ => splitted ++ [rev cur] end
  | c :: r =>
    if c =? SLASH then
      match cur with
      | [] => split_loop agg r [] splitted
      | lastc :: _ =>
        let part := rev cur in
        let part' :=
          if (lastc =? COLON) && negb (hd 0 agg =? SLASH) && (match splitted with [] => true | _ => false end)
          then if (length part + 1 <? length agg)%nat then if nth (length part + 1) agg 0 =? SLASH then part ++ [SLASH] else part else part
          else part in
        split_loop agg r [] (splitted ++ [part'])
      end
    else split_loop agg r (c :: cur) splitted
  end.
Definition path_split (agg : str) : list str := split_loop agg agg [] [].

(** reduce, path.cpp:302-339: [left] is what precedes the iterator [it], last first; the iterator [prev] always designates the
    element just before [it], or [it] itself when there is none. std::list::remove(".") is the filter. *)
Fixpoint reduce_loop (left : list str) (rest : list str) : list str :=
  match rest with
  | [] => rev left
  | it :: r =>
    match left with
    | prev :: left' =>
      if str_eqb it dotdot && negb (str_eqb prev dotdot) then reduce_loop left' r else reduce_loop (it :: left) r
    | [] => (* prev == it *)
      if str_eqb it dotdot && negb (str_eqb it dotdot) then reduce_loop [] r else reduce_loop [it] r
    end
  end.
Definition reduce (rel : bool) (d : list str) : list str :=
  let d1 := filter (fun x => negb (str_eqb x dot)) d in
  if rel && (match d1 with [] => true | _ => false end) then [dot]
  else
    let d2 := reduce_loop [] d1 in
    if rel && (match d2 with [] => true | _ => false end) then [dot] else d2.

(** path::path(string, bool), path.cpp:51-102 *)
Definition path_make (chem : str) (x_undisclosed : bool) : res path :=
  match chem with
  | [] => Err Erange
  | c :: r =>
    let und := if str_eqb chem [SLASH] then false else x_undisclosed in
    let rel := negb (c =? SLASH) in
    let s := if rel then chem else r in
    let s' := if und then match rev s with z :: t => if z =? SLASH then rev t else s | [] => s end else s in
    let d := if und then [s'] else path_split s' in
    if rel && (match d with [] => true | _ => false end) then Err Erange
    else Ok (Path (if und then d else reduce rel d) rel und)
  end.

(** display, path.cpp:253-264 *)
Fixpoint join (d : list str) : str :=
  match d with
  | [] => []
  | [w] => w
  | w :: r => w ++ SLASH :: join r
  end.
Definition display (p : path) : str := (if relative p then [] else [SLASH]) ++ join (dirs p).
(** display_without_root, path.cpp:266-281: UB is the increment of the end iterator *)
Definition display_without_root (p : path) : res str :=
  if relative p then match dirs p with [] => Err UB | _ :: r => Ok (join r) end else Ok (join (dirs p)).
(** operator ==, path.cpp:122-128 *)
Definition path_eqb (p q : path) : bool := str_eqb (display p) (display q).
(** basename, path.cpp:130-136 *)
Definition basename (p : path) : str := last (dirs p) [SLASH].
(** pop, path.cpp:150-170 *)
Definition pop (p : path) : option (str * path) :=
  if relative p then
    if (1 <? length (dirs p))%nat then Some (last (dirs p) [], Path (removelast (dirs p)) true (undisclosed p)) else None
  else match dirs p with [] => None | _ => Some (last (dirs p) [], Path (removelast (dirs p)) false (undisclosed p)) end.
(** pop_front, path.cpp:172-192 *)
Definition pop_front (p : path) : option (str * path) :=
  if relative p then
    match dirs p with
    | a :: (_ :: _) as d => Some (a, Path (tl (dirs p)) true (undisclosed p))
    | _ => None
    end
  else match dirs p with [] => None | d => Some ([SLASH], Path d true (undisclosed p)) end.
(** operator += (path), path.cpp:194-213 *)
Definition path_add (p a : path) : res path :=
  if negb (relative a) then Err Erange
  else Ok (Path (reduce (relative p) (dirs p ++ filter (fun x => negb (str_eqb x dot)) (dirs a))) (relative p) (undisclosed p || undisclosed a)).
(** operator += (string), path.cpp:215-220 *)
Definition path_add_name (p : path) (sub : str) : path := Path (reduce (relative p) (dirs p ++ [sub])) (relative p) (undisclosed p).
(** is_subdir_of with case_sensit, path.cpp:222-251 *)
Definition is_subdir_of (p q : path) : bool :=
  let me := display p in let you := display q in
  if (length you <=? length me)%nat then
    if str_eqb (firstn (length you) me) you then
      if (length you <? length me)%nat then
        ((1 <? length you)%nat && (nth (length you) me 0 =? SLASH)) || ((length you =? 1)%nat && (hd 0 you =? SLASH))
      else true
    else false
  else false.
(** is_subdir_of without case_sensit, path.cpp:222-251: [up] is the upper case of a character. tools_to_upper (tools.cpp:968-992)
    is taken to work character by character, without changing the length of the string. *)
Definition is_subdir_nocase (up : N -> N) (p q : path) : bool :=
  let me := map up (display p) in let you := map up (display q) in
  if (length you <=? length me)%nat then
    if str_eqb (firstn (length you) me) you then
      if (length you <? length me)%nat then
        ((1 <? length you)%nat && (nth (length you) me 0 =? SLASH)) || ((length you =? 1)%nat && (hd 0 you =? SLASH))
      else true
    else false
  else false.
(** degre, path.hpp:174 *)
Definition degre (p : path) : nat := (length (dirs p) + (if relative p then 0 else 1))%nat.
(** explode_undisclosed, path.cpp:284-300 *)
Definition explode_undisclosed (p : path) : path :=
  if undisclosed p then match path_make (display p) false with Ok t => t | Err _ => p end else p.
