(** * Model of storage (src/libdar/storage.cpp, storage.hpp) and memory_file (src/libdar/memory_file.cpp)

    A storage is the chain of its cells, from first to last; the pointer of a cell is its rank. [M] is the largest value of an U_32. The check that an
    iterator belongs to the storage it is used with (it.ref != this) is not modelled: iterators are only used with their storage. *)
From Verif Require Import Base FileModel ClientSpec.
Open Scope nat_scope.

Definition cells := list (list N).
(** iterator, storage.hpp:91-146: a cell and an offset, or OFF_END, or OFF_BEGIN *)
Inductive iter := It (i off : nat) | IEnd | IBeg.
(** begin(), storage.hpp:150 *)
Definition st_begin (s : cells) : iter := match s with [] => IEnd | _ => It 0 0 end.
(** size(), storage.cpp:113-125 *)
Definition st_size (s : cells) : nat := fold_left (fun n c => n + length c) s 0.
(** clear(), storage.cpp:127-136 *)
Definition st_clear (v : N) (s : cells) : cells := map (fun c => repeat v (length c)) s.
(** dump(), storage.cpp:138-147 *)
Definition st_dump (s : cells) : list N := fold_left (fun l c => l ++ c) s [].
(** write(), storage.cpp:149-181: the cells from the one pointed to; result: the cells, what could not be written, the iterator *)
Fixpoint write_go (s : cells) (i off : nat) (a : list N) : cells * list N * iter :=
  match s with
  | [] => ([], a, IEnd)
  | c :: r =>
    match a with
    | [] => (s, [], It i off)
    | _ =>
      let space := length c - off in
      if length a <=? space then ((firstn off c ++ a ++ skipn (off + length a) c) :: r, [], It i (off + length a))
      else let '(r', a', it) := write_go r (S i) 0 (skipn space a) in ((firstn off c ++ firstn space a) :: r', a', it)
    end
  end.
Definition st_write (s : cells) (it : iter) (a : list N) : res (cells * nat * iter) :=
  match it with
  | It i off => let '(r, rem, it) := write_go (skipn i s) i off a in Ok (firstn i s ++ r, length a - length rem, it)
  | IEnd => Ok (s, 0, IEnd)
  | IBeg => match a with [] => Ok (s, 0, IBeg) | _ => Err UB end (* null pointer *)
  end.
(** read(), storage.cpp:183-215 *)
Fixpoint read_go (s : cells) (i off n : nat) : list N * iter :=
  match s with
  | [] => ([], IEnd)
  | c :: r =>
    if n =? 0 then ([], It i off)
    else
      let space := length c - off in
      if n <=? space then (firstn n (skipn off c), It i (off + n))
      else let '(l, it) := read_go r (S i) 0 (n - space) in (skipn off c ++ l, it)
  end.
Definition st_read (s : cells) (it : iter) (n : nat) : res (list N * iter) :=
  match it with
  | It i off => Ok (read_go (skipn i s) i off n)
  | IEnd => Ok ([], IEnd)
  | IBeg => if n =? 0 then Ok ([], IBeg) else Err UB
  end.
(** relative_skip_to(), storage.cpp:789-825 *)
Fixpoint fwd_go (s : cells) (i off val : nat) : iter :=
  match s with
  | [] => IEnd
  | c :: r => if val =? 0 then It i off else if length c <=? off + val then fwd_go r (S i) 0 (val - (length c - off)) else It i (off + val)
  end.
Fixpoint bwd_go (before : cells) (i off val : nat) : iter := (* [before]: the previous cells, nearest first *)
  if val <=? off then It i (off - val)
  else match before with
       | [] => IBeg
       | p :: b => bwd_go b (i - 1) (length p) (val - off)
       end.
Definition st_rel (s : cells) (it : iter) (x : Z) : iter :=
  match it with
  | It i off => if (0 <=? x)%Z then fwd_go (skipn i s) i off (Z.to_nat x) else bwd_go (rev (firstn i s)) i off (Z.to_nat (- x))
  | _ => if (0 <=? x)%Z then IEnd else it
  end.
Definition U16_max : nat := N.to_nat 65535.
(** skip_to(), storage.cpp:774-787, by steps of an U_16 *)
Fixpoint skip_loop (fuel : nat) (s : cells) (it : iter) (pas val : nat) : iter :=
  match fuel with
  | O => it
  | S k => let it := st_rel s it (Z.of_nat pas) in
           let pas := Nat.min val U16_max in
           if 0 <? pas then skip_loop k s it pas (val - pas) else it
  end.
Definition st_skip_to (s : cells) (val : nat) : iter := skip_loop (S (S val)) s (st_begin s) (Nat.min val U16_max) (val - Nat.min val U16_max).
(** get_position(), storage.cpp:827-851 *)
Definition st_pos (s : cells) (it : iter) : res nat :=
  match s, it with
  | [], _ => Err Erange
  | _, It i off => Ok (st_size (firstn i s) + off)
  | _, _ => Err Erange
  end.
(** operator * of an iterator, storage.cpp:766-772 *)
Definition st_deref (s : cells) (it : iter) : res N :=
  match it with
  | It i off => match nth_error s i with Some c => if off <? length c then Ok (nth off c 0%N) else Err Erange | None => Err UB end
  | _ => Err Erange
  end.
(** operator ++ and -- of an iterator, storage.hpp:203-233 *)
Definition st_next (s : cells) (it : iter) : iter :=
  match it with
  | It i off => if length (nth i s []) <=? off + 1 then if S i <? length s then It (S i) 0 else IEnd else It i (off + 1)
  | _ => it
  end.
Definition st_prev (s : cells) (it : iter) : iter :=
  match it with
  | It i off => if 0 <? off then It i (off - 1) else match i with O => IBeg | S j => It j (length (nth j s []) - 1) end
  | _ => it
  end.
(** operator [], storage.cpp:93-111: the element, or UB when it lies out of the memory of the cell or the pointer is null *)
Definition in_cell (c : list N) (off : nat) : res N := if off <? length c then Ok (nth off c 0%N) else Err UB.
Fixpoint index_loop (fuel M : nat) (s : cells) (i off pos : nat) : res (nat * nat) :=
  match fuel with
  | O => Err Fuel
  | S k =>
    match s with
    | [] => Err Erange
    | c :: r =>
      if length c <? off then
        match r with
        | [] => Err UB
        | d :: _ => if length d <? off - length c then index_loop k M r (S i) (off - length c) pos else Ok (S i, off - length c)
        end
      else
        let take := Nat.min pos (M - off) in
        if length c <? off + take then index_loop k M s i (off + take) (pos - take) else Ok (i, off + take)
    end
  end.
Definition st_index (M : nat) (s : cells) (pos : nat) : res (nat * nat) := index_loop (2 * length s + pos + 2) M s 0 0 pos.
Definition st_get (M : nat) (s : cells) (pos : nat) : res N :=
  let* '(i, off) := st_index M s pos in in_cell (nth i s []) off.
Definition st_set (M : nat) (s : cells) (pos : nat) (v : N) : res cells :=
  let* '(i, off) := st_index M s pos in
  let* _ := in_cell (nth i s []) off in
  let c := nth i s [] in
  Ok (firstn i s ++ (firstn off c ++ v :: skipn (S off) c) :: skipn (S i) s).
(** make_alloc(U_32), storage.cpp:628-683: [orc] tells for each request of memory whether it is satisfied (the requests for the cells themselves are), true beyond its end;
    the result is the sizes of the cells *)
Fixpoint alloc_loop (fuel : nat) (M : nat) (orc : list bool) (size dsize : nat) (got : list nat) : res (list nat * list bool) :=
  match fuel with
  | O => Err Fuel
  | S k =>
    let ok := hd true orc in
    let orc := tl orc in
    if ok then
      let got := got ++ [dsize] in
      let size := if dsize <=? size then size - dsize else size + (M + 1) - dsize in (* U_32 *)
      if 0 <? size then alloc_loop k M orc size dsize got else Ok (got, orc)
    else if 2 <? dsize then alloc_loop k M orc size (dsize / 2) got
    else Err Ememory
  end.
Definition make_alloc (fuel M : nat) (orc : list bool) (size : nat) : res (list nat * list bool) := if size =? 0 then Ok ([], orc) else alloc_loop fuel M orc size size [].
(** reduce(), storage.cpp:464-512; [lim] is failed_alloc *)
Fixpoint reduce_go (lim : nat) (orc : list bool) (c : list N) (rest : cells) : cells :=
  match rest with
  | [] => [c]
  | d :: r =>
    if length d + length c <? lim then
      if hd true orc then reduce_go lim (tl orc) (c ++ d) r else c :: reduce_go (length d + length c) (tl orc) d r
    else c :: reduce_go lim orc d r
  end.
Definition st_reduce (M : nat) (orc : list bool) (s : cells) : cells := match s with [] => [] | c :: r => reduce_go M orc c r end.
(** insert_bytes_at_iterator_cmn(), storage.cpp:514-609; [lay] gives the sizes of the cells of the temporary storage *)
Definition blank (l : list nat) : cells := map (fun n => repeat 0%N n) l.
Definition st_insert (M : nat) (orc : list bool) (lay : nat -> list nat) (s : cells) (it : iter) (a : list N) : res cells :=
  match a with
  | [] => Ok s
  | _ =>
    match it with
    | It i off =>
      let c := nth i s [] in
      let temp := blank (lay (length a + length c)) in
      let* '(temp, _, g) := st_write temp (st_begin temp) (firstn off c) in
      let* '(temp, _, g) := st_write temp g a in
      let* '(temp, _, g) := st_write temp g (skipn off c) in
      match temp with
      | [] => Err Ebug
      | _ => Ok (st_reduce M orc (firstn i s ++ temp ++ skipn (S i) s))
      end
    | _ =>
      let temp := blank (lay (length a)) in
      let* '(temp, _, _) := st_write temp (st_begin temp) a in
      match temp with
      | [] => Err Ebug
      | _ => Ok (st_reduce M orc (match it with IEnd => s ++ temp | _ => temp ++ s end))
      end
    end
  end.
(** the same with a repeated byte *)
Definition st_insert_const (M : nat) (orc : list bool) (lay : nat -> list nat) (s : cells) (it : iter) (v : N) (n : nat) : res cells :=
  if n =? 0 then Ok s
  else
    match it with
    | It i off =>
      let c := nth i s [] in
      let temp := st_clear v (blank (lay (n + length c))) in
      let* '(temp, _, g) := st_write temp (st_begin temp) (firstn off c) in
      let g := st_rel temp (st_rel temp g (Z.of_nat (n / 2))) (Z.of_nat (n / 2 + n mod 2)) in
      let* '(temp, _, g) := st_write temp g (skipn off c) in
      match temp with
      | [] => Err Ebug
      | _ => Ok (st_reduce M orc (firstn i s ++ temp ++ skipn (S i) s))
      end
    | _ =>
      let temp := st_clear v (blank (lay n)) in
      match temp with
      | [] => Err Ebug
      | _ => Ok (st_reduce M orc (match it with IEnd => s ++ temp | _ => temp ++ s end))
      end
    end.
(** remove_bytes_at_iterator(), storage.cpp:267-335, the memory needed being available *)
Fixpoint remove_go (s : cells) (off n : nat) : cells :=
  match s with
  | [] => []
  | c :: r =>
    if n =? 0 then s
    else
      let can := length c - off in
      if can <? n then if 0 <? off then firstn off c :: remove_go r 0 (n - can) else remove_go r 0 (n - length c)
      else (firstn off c ++ skipn (off + n) c) :: r
  end.
Definition st_remove (M : nat) (orc : list bool) (s : cells) (it : iter) (n : nat) : cells :=
  st_reduce M orc (match it with It i off => firstn i s ++ remove_go (skipn i s) off n | _ => s end).
(** truncate(), storage.cpp:350-360, for at most M bytes to remove (beyond, the iterator is used again after the cells have been merged) *)
Definition st_truncate (M : nat) (orc : list bool) (s : cells) (pos : nat) : cells :=
  if pos <? st_size s then st_remove M orc s (st_skip_to s pos) (st_size s - pos) else s.
(** storage(proto_generic_file & f, size), storage.cpp:55-86, over a plain file *)
Fixpoint load_go (l : list nat) (f : gfile) : res (cells * gfile) :=
  match l with
  | [] => Ok ([], f)
  | n :: r => let '(d, f) := g_read n f in if length d <? n then Err Erange else let* '(s, f) := load_go r f in Ok (d :: s, f)
  end.
(** copy_from(), storage.cpp:391-435, of less than 2^32 bytes into a single cell: the bytes are taken one by one through an iterator *)
Fixpoint copy_loop (fuel : nat) (s : cells) (it : iter) (got : list N) : res (list N) :=
  match fuel with
  | O => Err Fuel
  | S k => match it with
           | IEnd => Ok got
           | _ => let* b := st_deref s it in copy_loop k s (st_next s it) (got ++ [b])
           end
  end.
Definition st_copy (s : cells) : res cells :=
  let* l := copy_loop (S (st_size s + length s)) s (st_begin s) [] in Ok (match l with [] => [] | _ => [l] end).

(** difference(), storage.cpp:443-462: the walk starts from the last cells and follows next, which is null there *)
Definition st_difference (a b : cells) : Z := (Z.of_nat (length (last a [])) - Z.of_nat (length (last b [])))%Z.

(** ** memory_file *)
Record mfile := mk_m { m_data : cells; m_size : nat; m_pos : nat }.
Definition m_new : mfile := mk_m [] 0 0.
(** inherited_read, memory_file.cpp:158-170 *)
Fixpoint m_read_loop (n M : nat) (m : mfile) (got : list N) : res (list N * mfile) :=
  match n with
  | O => Ok (got, m)
  | S k => if m_pos m <? m_size m then let* b := st_get M (m_data m) (m_pos m) in m_read_loop k M (mk_m (m_data m) (m_size m) (m_pos m + 1)) (got ++ [b]) else Ok (got, m)
  end.
(** inherited_write, memory_file.cpp:172-194 *)
Fixpoint m_write_loop (a : list N) (M : nat) (m : mfile) : res (list N * mfile) :=
  match a with
  | [] => Ok ([], m)
  | x :: r => if m_pos m <? m_size m then let* s := st_set M (m_data m) (m_pos m) x in m_write_loop r M (mk_m s (m_size m) (m_pos m + 1)) else Ok (a, m)
  end.
Definition m_write (M : nat) (orc : list bool) (lay : nat -> list nat) (a : list N) (m : mfile) : res mfile :=
  match a with
  | [] => Ok m
  | _ =>
    let* '(r, m) := m_write_loop a M m in
    let* s := st_insert M orc lay (m_data m) IEnd r in
    let pos := m_pos m + length r in
    Ok (mk_m s (if m_size m <? pos then pos else m_size m) pos)
  end.
(** skip, skip_to_eof, skip_relative, memory_file.cpp:33-93 *)
Definition m_skip (p : nat) (m : mfile) : bool * mfile := if m_size m <=? p then (false, mk_m (m_data m) (m_size m) (m_size m)) else (true, mk_m (m_data m) (m_size m) p).
Definition m_skip_rel (x : Z) (m : mfile) : bool * mfile :=
  let y := (Z.of_nat (m_pos m) + x)%Z in
  if (x <? 0)%Z then if (y <? 0)%Z then (false, mk_m (m_data m) (m_size m) 0) else (true, mk_m (m_data m) (m_size m) (Z.to_nat y))
  else if (Z.of_nat (m_size m) <? y)%Z then (false, mk_m (m_data m) (m_size m) (m_size m)) else (true, mk_m (m_data m) (m_size m) (Z.to_nat y)).
(** inherited_truncate, memory_file.cpp:196-204 *)
Definition m_truncate (M : nat) (orc : list bool) (p : nat) (m : mfile) : res mfile :=
  if m_size m <=? p then Err Ebug else Ok (mk_m (st_truncate M orc (m_data m) p) p (if p <? m_pos m then p else m_pos m)).
Definition m_op (M : nat) (orc : list bool) (lay : nat -> list nat) (o : gop) (m : mfile) : res (gout * mfile) :=
  match o with
  | GRead n => let* '(d, m) := m_read_loop n M m [] in Ok (OData d, m)
  | GWrite a => let* m := m_write M orc lay a m in Ok (OUnit, m)
  | GSkip p => let '(b, m) := m_skip p m in Ok (OBool b, m)
  | GEof => Ok (OBool true, mk_m (m_data m) (m_size m) (m_size m))
  | GRel x => let '(b, m) := m_skip_rel x m in Ok (OBool b, m)
  | GPos => Ok (OPos (m_pos m), m)
  end.
Fixpoint m_run (M : nat) (orc : list bool) (lay : nat -> list nat) (ops : list gop) (m : mfile) : res (list gout * mfile) :=
  match ops with
  | [] => Ok ([], m)
  | o :: r => let* '(a, m) := m_op M orc lay o m in let* '(l, m) := m_run M orc lay r m in Ok (a :: l, m)
  end.
