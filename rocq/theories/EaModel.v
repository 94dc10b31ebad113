(** * EaModel: lists of extended attributes

    Models src/libdar/ea.cpp and ea.hpp (class ea_attributs).

    Simplifications: std::map is the sequence of its pairs in increasing order of the keys
    (std::string compares bytes as unsigned numbers), searched linearly; the iterator [alire]
    is the key it designates, or None for end(); the move constructor and the move assignment
    are left out. *)
From Coq Require Import List.
From Verif Require Import Base InfinintModel HeaderModel.
Open Scope N_scope.

Definition str := list N.
(** operator < of std::string *)
Fixpoint str_lt (a b : str) : bool :=
  match a, b with
  | [], [] => false
  | [], _ :: _ => true
  | _ :: _, [] => false
  | x :: a, y :: b => if x <? y then true else if y <? x then false else str_lt a b
  end.

(** attr[k] = v *)
Fixpoint put (k v : str) (l : list (str * str)) : list (str * str) :=
  match l with
  | [] => [(k, v)]
  | (k', v') :: r => if str_lt k' k then (k', v') :: put k v r else if str_lt k k' then (k, v) :: (k', v') :: r else (k', v) :: r
  end.
(** std::map::find *)
Fixpoint get (k : str) (l : list (str * str)) : option str :=
  match l with
  | [] => None
  | (k', v') :: r => if str_lt k' k then get k r else if str_lt k k' then None else Some v'
  end.
(** begin() and the increment of an iterator *)
Definition begin (l : list (str * str)) : option str := match l with [] => None | (k, _) :: _ => Some k end.
Fixpoint after (k : str) (l : list (str * str)) : option str :=
  match l with [] => None | (k', _) :: r => if str_lt k k' then Some k' else after k r end.

(** ea.hpp:96-97 *)
Record ea := { attr : list (str * str); alire : option str }.
(** ea.hpp:51, ea.cpp:74-78 (and operator =, :86-92) *)
Definition empty : ea := {| attr := []; alire := None |}.
Definition copy (o : ea) : ea := {| attr := attr o; alire := begin (attr o) |}.
(** add, ea.hpp:62; clear, :66; size, :65; operator ==, :59 *)
Definition add (k v : str) (o : ea) : ea := {| attr := put k v (attr o); alire := alire o |}.
Definition clear (o : ea) : ea := empty.
Definition size (o : ea) : N := N.of_nat (length (attr o)).
Fixpoint s_eqb (a b : str) : bool := match a, b with [], [] => true | x :: a, y :: b => (x =? y) && s_eqb a b | _, _ => false end.
Fixpoint m_eqb (a b : list (str * str)) : bool :=
  match a, b with [], [] => true | (k, v) :: a, (k', v') :: b => s_eqb k k' && s_eqb v v' && m_eqb a b | _, _ => false end.
Definition equal (a b : ea) : bool := m_eqb (attr a) (attr b).
(** reset_read, ea.cpp:111-114; read, :116-127 *)
Definition reset_read (o : ea) : ea := {| attr := attr o; alire := begin (attr o) |}.
Definition read (o : ea) : option (str * str) * ea :=
  match alire o with
  | None => (None, o)
  | Some k => match get k (attr o) with
              | Some v => (Some (k, v), {| attr := attr o; alire := after k (attr o) |})
              | None => (None, o) (* no iterator designates a missing key *)
              end
  end.
(** find, ea.cpp:147-160 *)
Definition find (k : str) (o : ea) : option str := get k (attr o).
(** diff, ea.cpp:129-145; the second result is the object left by the call *)
Fixpoint diff_loop (fuel : nat) (cov : str -> bool) (o other : ea) : bool * ea :=
  match fuel with
  | O => (false, o)
  | S fuel => match read o with
              | (None, o) => (false, o)
              | (Some (k, v), o) =>
                if cov k && match find k other with None => true | Some v' => negb (s_eqb v' v) end then (true, o) else diff_loop fuel cov o other
              end
  end.
Definition diff (cov : str -> bool) (o other : ea) : bool * ea := diff_loop (S (length (attr o))) cov (reset_read o) other.
(** space_used, ea.cpp:162-174 *)
Definition space_used (o : ea) : N := fold_left (fun ret p => ret + (N.of_nat (length (fst p)) + N.of_nat (length (snd p)))) (attr o) 0.
(** operator +, ea.cpp:176-186; the second result is the argument as left by the call *)
Fixpoint plus_loop (fuel : nat) (ret arg : ea) : ea * ea :=
  match fuel with
  | O => (ret, arg)
  | S fuel => match read arg with (None, arg) => (ret, arg) | (Some (k, v), arg) => plus_loop fuel (add k v ret) arg end
  end.
Definition plus (o arg : ea) : ea * ea := plus_loop (S (length (attr arg))) (copy o) (reset_read arg).

(** write_pair_key, ea.cpp:211-218; dump, :99-109 *)
Definition pair_bytes (p : str * str) : list N := write_string (fst p) ++ dumpN (N.of_nat (length (snd p))) ++ snd p.
Definition dump (o : ea) : list N := dumpN (size o) ++ concat (map pair_bytes (attr o)).
(** read_pair_string, ea.cpp:190-209; EA_ROOT, :31.  [Err Fuel]: tools_read_string_size never returns *)
Definition system_ : str := [115; 121; 115; 116; 101; 109; 46].
Definition user_ : str := [117; 115; 101; 114; 46].
Definition read_pair (ver : N) (f : list N) : res (str * str * list N) :=
  let* '(pre, f) :=
    if ver <? 5 then
      match f with
      | [] => Err UB (* the byte read is not checked *)
      | fl :: f => Ok (if negb (N.land fl 128 =? 0) then system_ else user_, f)
      end
    else Ok ([], f) in
  let* '(key, f) := read_string f in
  let* '(len, f) := readN f in
  let* '(v, f) := read_string_size (S (S (length f))) len f in
  Ok (pre ++ key, v, f).
(** the constructor, ea.cpp:49-72: the number of attributes is taken by pieces that an U_32 holds *)
Fixpoint pairs (fuel : nat) (ver tmp tmp2 : N) (m : list (str * str)) (f : list N) : res (list (str * str) * list N) :=
  match fuel with
  | O => Err Fuel
  | S fuel =>
    if 0 <? tmp2 then let* '(k, v, f) := read_pair ver f in pairs fuel ver tmp (tmp2 - 1) (put k v m) f
    else let t := N.min tmp (2 ^ 32 - 1) in
         if 0 <? t then pairs fuel ver (tmp - t) t m f else Ok (m, f)
  end.
Definition construct (ver : N) (f : list N) : res (ea * list N) :=
  let* '(tmp, f) := readN f in
  let t := N.min tmp (2 ^ 32 - 1) in
  let* '(m, f) := pairs (2 * length f + 4) ver (tmp - t) t [] f in
  Ok ({| attr := m; alire := begin m |}, f).
