(** * Model of sar (src/libdar/sar.cpp, sar.hpp): an archive cut in slices

    Archive format 8 or more (the flag telling whether a slice is the last one is its last byte). The directory of the slices is a list of
    files, slice n at rank n - 1. Every operation returns the state it leaves, exceptions included. Not modelled: formats below 8 (opening
    such a slice gives Efeature here), lax mode, hashes, user hooks and pauses between slices, read ahead (no effect on data), I/O
    errors. When a slice is missing, damaged or from another archive the code asks the user for it; the model has a user who always
    refuses (Euser_abort). *)
From Verif Require Import Base NumModel InfinintModel SliceModel HeaderModel FileModel.
Open Scope nat_scope.

(** the directory of the slices *)
Definition disk : Type := list (option (list N)).
Definition d_get (d : disk) (n : nat) : option (list N) := match n with O => None | S k => nth k d None end.
Definition d_set (d : disk) (n : nat) (c : list N) : disk :=
  firstn (n - 1) d ++ repeat None (n - 1 - length d) ++ [Some c] ++ skipn n d.
(** sar_tools_get_higher_number_in_dir, sar_tools.cpp:96-152 *)
Fixpoint d_high (d : disk) : nat :=
  match d with
  | [] => 0
  | x :: r => match d_high r with
              | O => match x with Some _ => 1 | None => 0 end
              | k => S k
              end
  end.
(** sar_tools_remove_higher_slices_than, sar_tools.cpp:154-179 *)
Definition d_remove_above (d : disk) (n : nat) : disk := firstn n d.

(** fields of class sar, sar.hpp:230-275. [s_fd]: of_fd, as the number of the slice it is open on and its position;
    [s_hdr]: slicing; [s_cur]: of_current; [s_off]: file_offset; [s_max]: of_max_seen; [s_last]: of_last_file_num when
    of_last_file_known; [s_szcur]: size_of_current; [s_init]: initial *)
Record sar := mk_sar { s_disk : disk; s_hdr : slice_header; s_init : bool; s_fd : option (nat * nat);
                       s_cur : nat; s_off : nat; s_max : nat; s_last : option nat; s_szcur : nat }.
Definition set_disk d s := mk_sar d (s_hdr s) (s_init s) (s_fd s) (s_cur s) (s_off s) (s_max s) (s_last s) (s_szcur s).
Definition set_hdr h s := mk_sar (s_disk s) h (s_init s) (s_fd s) (s_cur s) (s_off s) (s_max s) (s_last s) (s_szcur s).
Definition set_init i s := mk_sar (s_disk s) (s_hdr s) i (s_fd s) (s_cur s) (s_off s) (s_max s) (s_last s) (s_szcur s).
Definition set_fd f s := mk_sar (s_disk s) (s_hdr s) (s_init s) f (s_cur s) (s_off s) (s_max s) (s_last s) (s_szcur s).
Definition set_cur c s := mk_sar (s_disk s) (s_hdr s) (s_init s) (s_fd s) c (s_off s) (s_max s) (s_last s) (s_szcur s).
Definition set_off o s := mk_sar (s_disk s) (s_hdr s) (s_init s) (s_fd s) (s_cur s) o (s_max s) (s_last s) (s_szcur s).
Definition set_max m s := mk_sar (s_disk s) (s_hdr s) (s_init s) (s_fd s) (s_cur s) (s_off s) m (s_last s) (s_szcur s).
Definition set_last l s := mk_sar (s_disk s) (s_hdr s) (s_init s) (s_fd s) (s_cur s) (s_off s) (s_max s) l (s_szcur s).
Definition set_szcur z s := mk_sar (s_disk s) (s_hdr s) (s_init s) (s_fd s) (s_cur s) (s_off s) (s_max s) (s_last s) z.

(** computations with exceptions on the object *)
Definition M (A : Type) : Type := sar -> res A * sar.
Definition ret {A} (a : A) : M A := fun s => (Ok a, s).
Definition throw {A} (e : exn) : M A := fun s => (Err e, s).
Definition mbind {A B} (m : M A) (k : A -> M B) : M B :=
  fun s => let '(r, s) := m s in match r with Ok a => k a s | Err e => (Err e, s) end.
Notation "'let!' x ':=' m 'in' k" := (mbind m (fun x => k)) (at level 200, x name, m at level 100, k at level 200, right associativity).
Notation "'let!' ' p ':=' m 'in' k" := (mbind m (fun x => match x with p => k end)) (at level 200, p pattern, m at level 100, k at level 200, right associativity).
Definition upd (f : sar -> sar) : M unit := fun s => (Ok tt, f s).
Definition get {A} (f : sar -> A) : M A := fun s => (Ok (f s), s).
Definition lift {A} (r : res A) : M A := fun s => (r, s).
(** infinint subtraction *)
Definition sub (a b : nat) : res nat := if a <? b then Err Erange else Ok (a - b).

Definition flag_of (s : sar) : N := sh_flag (s_hdr s).
Definition set_flag (f : N) (s : sar) : sar :=
  set_hdr (mk_sh (sh_magic (s_hdr s)) (sh_name (s_hdr s)) (sh_data (s_hdr s)) f (sh_sly (s_hdr s))) s.
(** "of_current == 1 ? slicing.get_first_slice_size() : slicing.get_slice_size()", and the same of the headers *)
Definition sl_size (s : sar) (n : nat) : nat := N.to_nat (if n =? 1 then first_size (sh_sly (s_hdr s)) else other_size (sh_sly (s_hdr s))).
Definition sl_head (s : sar) (n : nat) : nat :=
  N.to_nat (if n =? 1 then first_slice_header (sh_sly (s_hdr s)) else other_slice_header (sh_sly (s_hdr s))).
Definition content (s : sar) (n : nat) : list N := match d_get (s_disk s) n with Some c => c | None => [] end.
Definition is_none {A} (o : option A) : bool := match o with None => true | _ => false end.

(** of_fd->skip, read, write *)
Definition fd_skip (p : nat) : M unit := fun s =>
  match s_fd s with Some (n, _) => (Ok tt, set_fd (Some (n, p)) s) | None => (Err UB, s) end.
Definition fd_skip_eof : M unit := fun s =>
  match s_fd s with Some (n, _) => (Ok tt, set_fd (Some (n, length (content s n))) s) | None => (Err UB, s) end.
Definition fd_read (k : nat) : M (list N) := fun s =>
  match s_fd s with
  | Some (n, p) => let got := firstn k (skipn p (content s n)) in (Ok got, set_fd (Some (n, p + length got)) s)
  | None => (Err UB, s)
  end.
Definition fd_write (w : list N) : M unit := fun s =>
  match s_fd s with
  | Some (n, p) => (Ok tt, set_fd (Some (n, p + length w)) (set_disk (d_set (s_disk s) n (overwrite (content s n) p w)) s))
  | None => (Err UB, s)
  end.
Definition fd_pos (s : sar) : nat := match s_fd s with Some (_, p) => p | None => 0 end.
(** set_offset, sar.cpp:1426-1436 *)
Definition set_offset (p : nat) : M unit := fun s => if is_none (s_fd s) then (Err Erange, s) else fd_skip p s.

Definition name_eqb (a b : list N) : bool := if list_eq_dec N.eq_dec a b then true else false.

(** ** reading *)
(** open_readonly, sar.cpp:909-1111, and check_header, sar.cpp:1511-1623; of_fd is null when it is called *)
Definition open_readonly (seq : bool) (num : nat) : M unit := fun s =>
  match d_get (s_disk s) num with
  | None => (Err Euser_abort, s)                                     (* asked to the user: sar.cpp:970-975 *)
  | Some c =>
    let s := set_szcur (length c) s in
    match sh_read (Some (N.of_nat (length c))) false 0 c with
    | Err Euser_abort => (Err Euser_abort, set_fd (Some (num, 0)) s)
    | Err Ebug => (Err Ebug, set_fd (Some (num, 0)) s)
    | Err _ => (Err Euser_abort, set_fd None s)                       (* bad header: sar.cpp:1016-1023 *)
    | Ok (h, rest) =>
      let p := length c - length rest in
      if older_sar_than_v8 (sh_sly h) then (Err Efeature, set_fd None s)
      else if negb (s_init s) && negb (name_eqb (sh_name (s_hdr s)) (sh_name h)) then (Err Euser_abort, set_fd None s)
      else
        let s := if s_init s then set_init false (set_hdr h s) else s in
        let s := set_fd (Some (num, p)) s in
        let flag :=
          if (sh_flag h =? flag_at_end)%N then
            if seq then Ok flag_non_terminal
            else let end_flag := last c 0%N in
                 if ((end_flag =? flag_terminal) || (end_flag =? flag_non_terminal))%N then Ok end_flag else Err Erange
          else Ok (sh_flag h) in
        match flag with
        | Err e => (Err e, s)
        | Ok flag =>
          if (flag =? flag_terminal)%N then
            match s_last s with
            | Some l => if l =? num then (Ok tt, set_flag flag s) else (Err Erange, s)
            | None => (Ok tt, set_flag flag (set_last (Some num) s))
            end
          else if (flag =? flag_non_terminal)%N then (Ok tt, set_flag flag s)
          else (Err Euser_abort, set_fd None s)                       (* unknown flag: sar.cpp:1069-1074 *)
        end
    end
  end.
(** open_file in read mode, sar.cpp:1346-1424 (Edata is thrown by old formats only) *)
Definition open_file_r (seq : bool) (num : nat) : M unit := fun s =>
  if is_none (s_fd s) || negb (s_cur s =? num) then
    (let! _ := upd (set_fd None) in
     let! _ := open_readonly seq num in
     upd (fun s => set_cur num (set_off (sl_head s num) (set_max (Nat.max (s_max s) num) s)))) s
  else (Ok tt, s).

(** ** operations common to both modes, [opener] being open_file *)
(** get_position once the slicing is known, sar.cpp:586-602 *)
Definition position (s : sar) : res nat :=
  if 1 <? s_cur s then
    let* a := sub (sl_size s 1) (sl_head s 1) in
    let* a := sub a 1 in
    let* b := sub (sl_size s 2) (sl_head s 2) in
    let* b := sub b 1 in
    sub (a + (s_cur s - 2) * b + s_off s) (sl_head s 2)
  else sub (s_off s) (sl_head s 1).
(** which_slice on the offsets of the archive *)
Definition which (s : sar) (pos : nat) : res (nat * nat) :=
  let* '(n, o) := which_slice (sh_sly (s_hdr s)) (N.of_nat pos) in Ok (N.to_nat n, N.to_nat o).
(** skip, sar.cpp:307-363 *)
Definition s_skip (opener : nat -> M unit) (pos : nat) : M bool := fun s0 =>
  (let! here := fun s => if s_init s then (let! _ := opener 1 in fun s => if s_init s then (Err Ebug, s) else (Ok false, s)) s
                         else (let! p := fun s => (position s, s) in ret (p =? pos)) s in
   if here : bool then ret true
   else
     let! '(dest, offset) := fun s => (which s pos, s) in
     fun s =>
       match s_last s with
       | Some l =>
         if l <? dest then (let! _ := opener l in let! _ := fd_skip_eof in let! _ := upd (fun s => set_off (fd_pos s) s) in ret false) s
         else match (let! _ := opener dest in let! _ := set_offset offset in upd (set_off offset)) s with
              | (Ok _, s) => (Ok true, s)
              | (Err Erange, s) => (Ok false, s)
              | (Err e, s) => (Err e, s)
              end
       | None => match (let! _ := opener dest in let! _ := set_offset offset in upd (set_off offset)) s with
                 | (Ok _, s) => (Ok true, s)
                 | (Err Erange, s) => (Ok false, s)
                 | (Err e, s) => (Err e, s)
                 end
       end) s0.
(** "if(of_current.is_zero() && initial) skip(0)" *)
Definition fetch (opener : nat -> M unit) : M unit := fun s =>
  if (s_cur s =? 0) && s_init s then (let! _ := s_skip opener 0 in fun s => if s_init s then (Err Ebug, s) else (Ok tt, s)) s
  else if s_init s then (Err Ebug, s) else (Ok tt, s).
(** get_position, sar.cpp:568-603 *)
Definition s_position (opener : nat -> M unit) : M nat :=
  let! _ := fetch opener in fun s => (position s, s).
(** skip_forward, sar.cpp:415-455: the loop *)
Fixpoint fwd_loop (fuel : nat) (s : sar) (number offset : nat) : res (nat * nat) :=
  match fuel with
  | O => Err Fuel
  | S k =>
    if (sl_size s number <=? offset + 1) && match s_last s with None => true | Some l => number <=? l end then
      let* d := sub (sl_size s number) 1 in
      let* o := sub offset d in
      fwd_loop k s (S number) (o + sl_head s 2)
    else Ok (number, offset)
  end.
Definition s_forward (opener : nat -> M unit) (x : nat) : M bool :=
  let! _ := fetch opener in
  let! '(number, offset) := fun s => (fwd_loop (S (s_off s + x)) s (s_cur s) (s_off s + x), s) in
  fun s => if offset + 1 <? sl_size s number
           then (let! _ := opener number in let! _ := upd (set_off offset) in let! _ := set_offset offset in ret true) s
           else (Ok false, s).
(** skip_backward, sar.cpp:457-507 *)
Fixpoint bwd_loop (fuel : nat) (s : sar) (number offset neg : nat) : res (nat * nat * nat) :=
  match fuel with
  | O => Err Fuel
  | S k =>
    if (1 <? number) && (offset <? neg + sl_head s 2) then
      let* d := sub offset (sl_head s 2) in
      let* neg := sub neg (d + 1) in
      let* o := sub (sl_size s (number - 1)) 1 in
      let* o := sub o 1 in
      bwd_loop k s (number - 1) o neg
    else Ok (number, offset, neg)
  end.
Definition s_backward (opener : nat -> M unit) (x : nat) : M bool :=
  let! _ := fetch opener in
  let! '(number, offset, neg) := fun s => (bwd_loop (S (s_cur s)) s (s_cur s) (s_off s) x, s) in
  fun s => if neg + sl_head s (if 1 <? number then 2 else 1) <=? offset
           then (let! _ := opener number in let! _ := upd (set_off (offset - neg)) in let! _ := set_offset (offset - neg) in ret true) s
           else (let! _ := opener 1 in fun s => (let! _ := set_offset (sl_head s 1) in ret false) s) s.
(** skip_relative, sar.cpp:509-522 *)
Definition s_relative (opener : nat -> M unit) (x : Z) : M bool :=
  if (0 <? x)%Z then s_forward opener (Z.to_nat x)
  else if (x <? 0)%Z then s_backward opener (Z.to_nat (- x))
  else ret true.

(** the constructor for reading, sar.cpp:120-167, without external header *)
Definition r_make (d : disk) : sar :=
  mk_sar d (mk_sh SAUV_MAGIC label_zero label_zero 0%N (mk_layout 0 0 0 0 false)) true None 0 0 0 None 0.
(** open_last_file in read mode, sar.cpp:1438-1490: the second failure asks the user *)
Definition open_last_r (seq : bool) : M unit := fun s =>
  match s_last s with
  | Some l => open_file_r seq l s
  | None =>
    if negb (is_none (s_fd s)) && (flag_of s =? flag_terminal)%N then (Ok tt, s)
    else match d_high (s_disk s) with
         | O => (Err Euser_abort, set_fd None s)
         | num => (let! _ := open_file_r seq num in
                   fun s => if (flag_of s =? flag_terminal)%N then (Ok tt, s)
                            else (let! _ := upd (set_fd None) in
                                  let! _ := open_file_r seq num in
                                  let! _ := upd (set_fd None) in throw Euser_abort) s) s
         end
  end.
(** skip_to_eof in read mode, sar.cpp:365-385 *)
Definition r_skip_eof (seq : bool) : M bool :=
  let! _ := open_last_r seq in
  let! _ := fd_skip_eof in
  let! _ := upd (fun s => match s_fd s with Some (n, p) => set_fd (Some (n, p - 1)) s | None => s end) in
  let! _ := upd (fun s => set_off (fd_pos s) s) in
  ret true.
(** is_current_eof_a_normal_end_of_slice, bytes_still_to_read_in_slice, sar.cpp:1665-1699 *)
Definition normal_end (s : sar) : res bool :=
  match s_last s with
  | Some l => if l =? s_cur s then Ok true else let* z := sub (sl_size s (s_cur s)) 1 in Ok (z <=? s_off s)
  | None => let* z := sub (sl_size s (s_cur s)) 1 in Ok (z <=? s_off s)
  end.
(** inherited_read, sar.cpp:648-723: one turn of the loop, None when it stops *)
Definition read_turn (seq : bool) (want : nat) : M (option (list N)) :=
  let! tmp := fun s =>
    if is_none (s_fd s) then (Ok [], s)
    else
      (let! got := fd_read want in
       fun s =>
         if ((negb (s_szcur s =? 0) && (fd_pos s =? s_szcur s)) || ((s_szcur s =? 0) && (length got <? want))) && (0 <? length got) then
           if is_none (s_last s) then
             let f := last got 0%N in
             if (f =? flag_terminal)%N then (Ok (removelast got), set_flag flag_terminal (set_last (Some (s_cur s)) s))
             else if (f =? flag_non_terminal)%N then (Ok (removelast got), s)
             else (Err Erange, s)
           else (Ok (removelast got), s)
         else (Ok got, s)) s in
  match tmp with
  | [] => fun s =>
    if (flag_of s =? flag_terminal)%N || match s_last s with Some l => l <=? s_cur s | None => false end then (Ok None, s)
    else
      (let! e := fun s => (normal_end s, s) in
       if e : bool then let! _ := open_file_r seq (S (s_cur s)) in ret (Some [])
       else fun s =>  (* filling with zeros the missing part of the slice *)
              let place := Nat.min (sl_size s (s_cur s) - 1 - s_off s) want in
              (Ok (Some (repeat 0%N place)), set_off (s_off s + place) s)) s
  | _ :: _ => let! _ := upd (fun s => set_off (s_off s + length tmp) s) in ret (Some tmp)
  end.
Fixpoint read_loop (fuel : nat) (seq : bool) (want : nat) (acc : list N) : M (list N) :=
  match want with
  | O => ret acc
  | _ => match fuel with
         | O => throw Fuel
         | S k => let! t := read_turn seq want in
                  match t with
                  | None => ret acc
                  | Some d => read_loop k seq (want - length d) (acc ++ d)
                  end
         end
  end.
(** each turn but those opening the next slice gives bytes *)
Definition r_read (seq : bool) (n : nat) : M (list N) :=
  let! _ := fun s => if s_cur s =? 0 then (let! _ := s_skip (open_file_r seq) 0 in ret tt) s else (Ok tt, s) in
  read_loop (2 * n + 2) seq n [].

(** ** writing *)
(** close_file in write mode, sar.cpp:823-867 *)
Definition close_w (terminal : bool) : M unit := fun s =>
  if is_none (s_fd s) then (Ok tt, s)
  else
    (let! lim := fun s => (sub (sl_size s (if 1 <? s_cur s then 2 else 1)) 1, s) in
     let! _ := if terminal then fd_skip_eof else fd_skip lim in
     fun s => if lim <? fd_pos s then (Err Ebug, s)
              else (let! _ := fd_write [if terminal then flag_terminal else flag_non_terminal] in upd (set_fd None)) s) s.
(** open_writeonly, sar.cpp:1113-1317. [ow]: opt_allow_overwrite, without warning. A file which exists and is not a slice of this archive is
    erased when allowed. *)
Definition open_writeonly (ow : bool) (num : nat) : M unit := fun s =>
  let c :=
    match d_get (s_disk s) num with
    | None => Ok []
    | Some c => match sh_read (Some (N.of_nat (length c))) false 0 c with
                | Ok (h, _) => if name_eqb (sh_name h) (sh_name (s_hdr s)) then Ok c else if ow then Ok [] else Err Erange
                | Err Ebug => Err Ebug
                | Err _ => if ow then Ok [] else Err Erange
                end
    end in
  match c with
  | Err e => (Err e, s)
  | Ok c =>
    let s := set_disk (d_set (s_disk s) num c) (set_flag flag_at_end s) in
    match sh_write (s_hdr s) (num =? 1) false 0 with
    | Err e => (Err e, s)      (* the part of the header already written is not modelled *)
    | Ok (b, h) => (let! _ := upd (fun s => set_fd (Some (num, 0)) (set_hdr h s)) in
                    let! _ := fd_write b in
                    upd (fun s => set_szcur (sl_size s num) s)) s
    end
  end.
(** open_file in write mode, sar.cpp:1346-1424 *)
Definition open_file_w (ow : bool) (num : nat) : M unit := fun s =>
  if is_none (s_fd s) || negb (s_cur s =? num) then
    (let! _ := close_w false in
     let! _ := upd (set_init false) in
     let! _ := open_writeonly ow num in
     upd (fun s => set_cur num (set_off (sl_head s num) (set_max (Nat.max (s_max s) num) s)))) s
  else (Ok tt, s).
(** the constructor for writing, sar.cpp:169-247 *)
Definition w_make (ow : bool) (d : disk) (file_size first_file_size : N) (internal_name data_name : list N) : res unit * sar :=
  let s := mk_sar d (mk_sh SAUV_MAGIC internal_name data_name 0%N (mk_layout first_file_size file_size 0 0 false)) true None 0 0 0 None 0 in
  if (file_size <? min_size + 1)%N then (Err Erange, s)
  else if (first_file_size <? min_size + 1)%N then (Err Erange, s)
  else open_file_w ow 1 s.
(** inherited_write, sar.cpp:784-821: the loop *)
Fixpoint write_loop (fuel : nat) (ow : bool) (a : list N) : M unit :=
  match a with
  | [] => ret tt
  | _ =>
    match fuel with
    | O => throw Fuel
    | S k => fun s =>
      match (let* r := sub (sl_size s (s_cur s)) (s_off s) in sub r 1) with
      | Err e => (Err e, s)
      | Ok room =>
        let n := Nat.min room (length a) in
        if 0 <? n then
          (let! _ := fd_write (firstn n a) in
           let! _ := upd (fun s => set_off (s_off s + n) s) in
           write_loop k ow (skipn n a)) s
        else (let! _ := open_file_w ow (S (s_cur s)) in write_loop k ow a) s
      end
    end
  end.
(** each turn but those opening the next slice writes bytes *)
Definition w_write (ow : bool) (a : list N) : M unit := write_loop (2 * length a) ow a.
(** inherited_terminate, sar.cpp:249-257 *)
Definition w_terminate : M unit := close_w true.
(** inherited_truncate, sar.cpp:725-782 *)
Definition w_truncate (ow : bool) (pos : nat) : M unit :=
  let! '(dest, offset) := fun s => (which s pos, s) in
  let! p := fun s => (position s, s) in
  let! _ := if pos <? p then let! _ := s_skip (open_file_w ow) pos in ret tt else ret tt in
  fun s =>
    if dest <? s_cur s then (Err Ebug, s)
    else if s_cur s <? dest then (Ok tt, s)
    else match s_fd s with
         | None => (Err Ebug, s)
         | Some (n, q) =>
           (Ok tt, set_disk (d_remove_above (d_set (s_disk s) n (firstn offset (content s n))) (s_cur s)) (set_max dest (set_last None s)))
         end.
(** skip_to_eof in write mode, sar.cpp:386-412 *)
Definition w_skip_eof (ow : bool) : M bool :=
  let! _ := fun s => open_file_w ow (s_max s) s in
  let! _ := fd_skip_eof in
  fun s =>
    let o := fd_pos s in
    if o =? sl_size s (s_cur s) then (let! _ := fd_skip (o - 1) in let! _ := upd (set_off (o - 1)) in ret true) s
    else if sl_size s (s_cur s) <? o then (Err Ebug, set_off o s)
    else (Ok true, set_off o s).
