(** * Model of the dar_manager database: data_tree, data_dir, candidates and the database operations
    (src/libdar/data_tree.cpp, data_dir.cpp, candidates.cpp, i_database.cpp).

    Dates are the datetime of DatetimeModel. archive_num (archive_num.hpp:46-84) is a U_16 below 65534: it is seen as N, every number
    computed below being at most one above an existing one. std::map<archive_num, T> is a list of pairs in increasing key order, which
    is the order of its iterators. Allocation failures are left out. *)
From Verif Require Import Base NumModel InfinintModel DatetimeModel CrcModel.
Open Scope N_scope.

(** enum db_etat and db_lookup, database_aux.hpp:40-63 *)
Inductive etat := et_saved | et_patch | et_patch_unusable | et_inode | et_present | et_removed | et_absent.
Inductive lookup := found_present | found_removed | not_found | not_restorable.
Definition etat_eqb (a b : etat) : bool :=
  match a, b with
  | et_saved, et_saved | et_patch, et_patch | et_patch_unusable, et_patch_unusable | et_inode, et_inode
  | et_present, et_present | et_removed, et_removed | et_absent, et_absent => true
  | _, _ => false
  end.

(** comparisons of dates, datetime.hpp:87-92; operator < never fails (theorem C19_order) *)
Definition dlt (a b : datetime) : bool := match dt_lt a b with Ok r => r | Err _ => false end.
Definition dge (a b : datetime) : bool := negb (dlt a b).
Definition dle (a b : datetime) : bool := negb (dlt b a).
Definition dgt (a b : datetime) : bool := dlt b a.
(** is_null, datetime.hpp:131 *)
Definition is_null (d : datetime) : bool := val d =? 0.
Definition date0 : datetime := dt_seconds 0.

(** class status, data_tree.hpp:171-188 (used for EA), and status_plus, :191-214: two optional CRC on top of it *)
Record status := St { s_date : datetime; s_present : etat }.
Record statusp := Sp { date : datetime; present : etat; base : option crc; result : option crc }.

(** ** std::map<archive_num, T> *)
Definition amap (A : Type) := list (N * A).
(** find *)
Fixpoint mfind {A} (k : N) (m : amap A) : option A :=
  match m with [] => None | (k', v) :: r => if k =? k' then Some v else mfind k r end.
(** operator[] followed by an assignment *)
Fixpoint mset {A} (k : N) (v : A) (m : amap A) : amap A :=
  match m with
  | [] => [(k, v)]
  | (k', v') :: r => if k <? k' then (k, v) :: m else if k =? k' then (k, v) :: r else (k', v') :: mset k v r
  end.
(** erase *)
Fixpoint mdel {A} (k : N) (m : amap A) : amap A :=
  match m with [] => [] | (k', v') :: r => if k =? k' then r else (k', v') :: mdel k r end.

(** ** check_delta_validity, data_tree.cpp:952-991 *)
(** operator == on CRC, crc.cpp:209-219 and 341-351: two objects of different classes (less than INFININT_MODE_START bytes or not)
    throw SRC_BUG *)
Definition crc_cmp (a b : crc) : res bool :=
  if Bool.eqb (N.of_nat (crc_size a) <? INFININT_MODE_START) (N.of_nat (crc_size b) <? INFININT_MODE_START)
  then Ok (crc_eq a b) else Err Ebug.
Definition set_present (s : statusp) (e : etat) : statusp := Sp (date s) e (base s) (result s).
Fixpoint delta_loop (prev : option crc) (m : amap statusp) : res (amap statusp * bool) :=
  match m with
  | [] => Ok ([], true)
  | (k, s) :: r =>
    let* '(s', prev', ok) :=
      match present s with
      | et_saved => Ok (s, result s, true)
      | et_patch | et_patch_unusable =>
        match base s with
        | None => Err Ebug
        | Some b =>
          let* good := match prev with Some p => crc_cmp p b | None => Ok false end in
          if good : bool then Ok (set_present s et_patch, result s, true)
          else Ok (set_present s et_patch_unusable, result s, false)
        end
      | et_present | et_inode => Ok (s, prev, true)
      | et_removed | et_absent => Ok (s, None, true)
      end in
    let* '(r', ok') := delta_loop prev' r in
    Ok ((k, s') :: r', ok && ok')
  end.
(** the caller drops the boolean *)
Definition check_delta (m : amap statusp) : res (amap statusp) :=
  let* '(m', _) := delta_loop None m in Ok m'.

(** ** class candidates, candidates.hpp:43-62 *)
Definition cand := list (N * etat).   (* the two deques num and status, front first *)
(** the last element and what precedes it *)
Definition back (c : cand) : option (N * etat) := match rev c with [] => None | x :: _ => Some x end.
(** add, candidates.cpp:36-100 *)
Definition cand_add (ewr : bool) (c : cand) (v : N) (st : etat) : res cand :=
  let start :=
    match st with
    | et_saved | et_patch_unusable => Some []
    | et_removed | et_absent => if ewr then None else Some []
    | et_patch | et_present | et_inode => Some c
    end in
  match start with
  | None => Ok c
  | Some c =>
    match back c with
    | None => Ok [(v, st)]
    | Some (_, last) =>
      if etat_eqb st et_present then Ok c
      else match last with
      | et_saved | et_patch => Ok (c ++ [(v, st)])
      | et_present => if (1 <? length c)%nat then Err Ebug else Ok [(v, st)]
      | et_inode => Ok (removelast c ++ [(v, st)])
      | et_removed | et_absent => Ok [(v, st)]
      | et_patch_unusable => Ok c
      end
    end
  end.
(** get_status, candidates.cpp:102-126 *)
Definition cand_status (c : cand) : lookup :=
  match c with
  | [] => not_found
  | (_, e) :: _ => match e with
    | et_saved => found_present
    | et_removed | et_absent => found_removed
    | _ => not_restorable
    end
  end.

(** ** data_tree *)
(** get_data, data_tree.cpp:350-377. The set of archives (set_the_set, candidates.cpp:128-143) is the list of the numbers. *)
Fixpoint data_loop (ewr : bool) (d : datetime) (max : datetime) (c : cand) (m : amap statusp) : res cand :=
  match m with
  | [] => Ok c
  | (k, s) :: r =>
    if dge (date s) max && (is_null d || dle (date s) d)
    then let* c := cand_add ewr c k (present s) in data_loop ewr d (date s) c r
    else data_loop ewr d max c r
  end.
Definition get_data (m : amap statusp) (d : datetime) (ewr : bool) : res (list N * lookup) :=
  let* c := data_loop ewr d date0 [] m in Ok (map fst c, cand_status c).

(** get_EA, data_tree.cpp:379-469 *)
Record ea_acc := Acc { max_seen : datetime; max_real : datetime; seen : bool; real : bool;
                       arch : N; last_seen : N; last_ewr : N }.
Definition ea_step (d : datetime) (a : ea_acc) (k : N) (s : status) : res ea_acc :=
  let in_time := is_null d || dle (s_date s) d in
  let* a :=
    if dge (s_date s) (max_seen a) && in_time then
      let* p := match s_present s with
                | et_saved | et_present => Ok true
                | et_removed | et_absent => Ok false
                | _ => Err Ebug
                end in
      Ok (Acc (s_date s) (max_real a) p (real a) (arch a) k (last_ewr a))
    else Ok a in
  if dge (s_date s) (max_real a) && in_time && negb (etat_eqb (s_present s) et_present) then
    match s_present s with
    | et_saved => Ok (Acc (max_seen a) (s_date s) (seen a) true k (last_seen a) k)
    | et_removed | et_absent => Ok (Acc (max_seen a) (s_date s) (seen a) false k (last_seen a) (last_ewr a))
    | _ => Err Ebug
    end
  else Ok a.
Fixpoint ea_loop (d : datetime) (a : ea_acc) (m : amap status) : res ea_acc :=
  match m with [] => Ok a | (k, s) :: r => let* a := ea_step d a k s in ea_loop d a r end.
Definition get_EA (m : amap status) (d : datetime) (ewr : bool) : res (N * lookup) :=
  let* a := ea_loop d (Acc date0 date0 false false 0 0 0) m in
  let a := if ewr && (0 <? last_ewr a) then Acc (max_seen a) (max_real a) true true (last_ewr a) (last_seen a) (last_ewr a) else a in
  let* r :=
    if arch a =? 0 then (if negb (last_seen a =? 0) then Ok not_restorable else Ok not_found)
    else if negb (last_seen a =? 0) then
      if seen a && negb (real a) then Ok not_restorable
      else if negb (Bool.eqb (seen a) (real a)) then Err Ebug
      else if real a then Ok found_present else Ok found_removed
    else Err Ebug in
  Ok (arch a, r).

(** the fields of a data_tree, data_tree.hpp:217-219, and of a data_dir, data_dir.hpp: kids is None for a plain data_tree *)
Inductive tree := Tree (name : list N) (mods : amap statusp) (chg : amap status) (kids : option (list tree)).
Definition t_name (t : tree) : list N := let 'Tree n _ _ _ := t in n.
Definition t_mods (t : tree) : amap statusp := let 'Tree _ m _ _ := t in m.
Definition t_chg (t : tree) : amap status := let 'Tree _ _ c _ := t in c.
Definition t_kids (t : tree) : option (list tree) := let 'Tree _ _ _ k := t in k.

(** a loop over the children stopping at the first exception *)
Definition mapM {A B} (f : A -> res B) : list A -> res (list B) :=
  fix go l := match l with [] => Ok [] | x :: r => let* y := f x in let* r' := go r in Ok (y :: r') end.

(** set_data and set_EA, data_tree.hpp:87-97 *)
Definition set_data (m : amap statusp) (a : N) (d : datetime) (e : etat) (b r : option crc) : res (amap statusp) :=
  check_delta (mset a (Sp d e b r) m).
Definition set_EA (m : amap status) (a : N) (d : datetime) (e : etat) : amap status := mset a (St d e) m.

(** data_tree_permutation, data_tree.cpp:1054-1076 *)
Definition perm (src dst x : N) : N :=
  if src <? dst then
    if (x <? src) || (dst <? x) then x else if x =? src then dst else x - 1
  else if src =? dst then x
  else if (src <? x) || (x <? dst) then x else if x =? src then dst else x + 1.
(** the rebuilding of a map under new keys, data_tree.cpp:753-757, 764-768, 779-786, 790-798 *)
Fixpoint rekey {A} (f : N -> N) (m : amap A) (acc : amap A) : amap A :=
  match m with [] => acc | (k, v) :: r => rekey f r (mset (f k) v acc) end.
(** apply_permutation, data_tree.cpp:748-771 and data_dir.cpp:431-441 *)
Fixpoint apply_permutation (src dst : N) (t : tree) : res tree :=
  let 'Tree n m c k := t in
  let* m' := check_delta (rekey (perm src dst) m []) in
  let c' := rekey (perm src dst) c [] in
  let* k' := match k with None => Ok None | Some l => let* l' := mapM (apply_permutation src dst) l in Ok (Some l') end in
  Ok (Tree n m' c' k').
(** skip_out, data_tree.cpp:773-801 and data_dir.cpp:444-454 *)
Definition skip_key (num x : N) : N := if num <? x then x - 1 else x.
Fixpoint skip_out (num : N) (t : tree) : tree :=
  let 'Tree n m c k := t in
  Tree n (rekey (skip_key num) m []) (rekey (skip_key num) c [])
    (match k with None => None | Some l => Some (map (skip_out num) l) end).

(** is the state one where the file exists *)
Definition exists_state (e : etat) : bool := match e with et_removed | et_absent => false | _ => true end.
(** the loop of data_tree.cpp:515-546 on last_mod: (found_in_archive, presence_max, last_mtime) *)
Fixpoint fin_loop (archive ign : N) (m : amap statusp) (num_max : N) (presence : bool) (last : datetime) : bool * bool * datetime :=
  match m with
  | [] => (false, presence, last)
  | (k, s) :: r =>
    if (k =? archive) && negb (etat_eqb (present s) et_absent) then (true, presence, last)
    else if (num_max <? k) && ((k <? ign) || (ign =? 0)) then fin_loop archive ign r k (exists_state (present s)) (date s)
    else fin_loop archive ign r num_max presence last
  end.
(** the loop of data_tree.cpp:606-637 on last_change: (found_in_archive, presence_max, num_max) *)
Fixpoint fin_loop_ea (archive ign : N) (m : amap status) (num_max : N) (presence : bool) : res (bool * bool * N) :=
  match m with
  | [] => Ok (false, presence, num_max)
  | (k, s) :: r =>
    if (k =? archive) && negb (etat_eqb (s_present s) et_absent) then Ok (true, presence, num_max)
    else if (num_max <? k) && ((k <? ign) || (ign =? 0)) then
      match s_present s with
      | et_saved | et_present => fin_loop_ea archive ign r k true
      | et_removed | et_absent => fin_loop_ea archive ign r k false
      | _ => Err Ebug
      end
    else fin_loop_ea archive ign r num_max presence
  end.
(** finalize, data_tree.cpp:503-649 *)
Definition finalize_mods (m : amap statusp) (archive : N) (deleted : datetime) (ign : N) : res (amap statusp) :=
  let '(found, presence, last) := fin_loop archive ign m 0 false date0 in
  if found then Ok m
  else if presence then set_data m archive (if dgt deleted last then deleted else last) et_absent None None
  else match mfind archive m with
  | None => Ok m
  | Some s => match present s with
    | et_removed => Ok m
    | et_absent => Ok (mdel archive m)
    | _ => Err Ebug
    end
  end.
Definition finalize_chg (m : amap statusp) (c : amap status) (archive : N) (deleted : datetime) (ign : N) : res (amap status) :=
  let '(_, _, last) := fin_loop archive ign m 0 false date0 in
  let* '(found, presence, num_max) := fin_loop_ea archive ign c 0 false in
  if found then Ok c
  else if negb (num_max =? 0) && presence then Ok (set_EA c archive (if dlt last deleted then deleted else last) et_absent)
  else Ok c.

(** remove_all_from on one entry, data_tree.cpp:651-706; the boolean is returned beside *)
Definition removed_at {A} (pres : A -> etat) (k : N) (m : amap A) : option A :=
  match mfind k m with Some s => if etat_eqb (pres s) et_removed then Some s else None | None => None end.
Definition remove_entry (m : amap statusp) (c : amap status) (a last : N) : res (amap statusp * amap status) :=
  let* m := if (a <? last) && (1 <? length m)%nat then
      match removed_at present a m with
      | Some s => match mfind (a + 1) m with None => set_data m (a + 1) (date s) et_removed None None | Some _ => Ok m end
      | None => Ok m
      end
    else Ok m in
  let c := if (a <? last) && (1 <? length c)%nat then
      match removed_at s_present a c with
      | Some s => match mfind (a + 1) c with None => set_EA c (a + 1) (s_date s) et_removed | Some _ => c end
      | None => c
      end
    else c in
  let* m := check_delta (mdel a m) in
  Ok (m, mdel a c).
(** remove_all_from, data_tree.cpp:651-706 and data_dir.cpp:365-385. The C++ loop restarts from the first child after an erasure; here
    the children already treated are not treated again, which is the same unless the second treatment changes them (the record of the
    archive is gone, nothing is propagated any more). *)
Definition is_nil {A} (l : list A) : bool := match l with [] => true | _ => false end.
Fixpoint remove_all_from (a last : N) (t : tree) : res (tree * bool) :=
  let 'Tree n m c k := t in
  let* k' := match k with
    | None => Ok None
    | Some l =>
      let* l' := mapM (remove_all_from a last) l in
      Ok (Some (map fst (filter (fun x => negb (snd x)) l')))
    end in
  let* '(m', c') := remove_entry m c a last in
  Ok (Tree n m' c' k', is_nil m' && is_nil c' && match k' with None => true | Some l => is_nil l end).

(** fix_corruption, data_tree.cpp:845-867 and data_dir.cpp:488-501. The erasure of the first children is lost when it answers false,
    as the object itself stays: it is kept here. *)
Fixpoint fix_corruption (t : tree) : bool * tree :=
  let 'Tree n m c k := t in
  let self := forallb (fun p => negb (exists_state (present (snd p)))) m && forallb (fun p => negb (exists_state (s_present (snd p)))) c in
  match k with
  | None => (self, t)
  | Some l =>
    let l' := (fix go l := match l with
                | [] => []
                | x :: r => let '(b, x') := fix_corruption x in if b : bool then go r else x' :: r
                end) l in
    match l' with [] => (self, Tree n m c (Some [])) | _ => (false, Tree n m c (Some l')) end
  end.

(** data_dir::finalize, data_dir.cpp:311-340, and finalize_except_self, :342-362. Edata tells the parent to drop the entry; the loop
    of the parent then restarts from its first child. [depth] bounds the recursion into directories ([Fuel] beyond), [n] the number of
    restarts: each one removes a child. *)
Definition last_of (l : list N) : option N := match rev l with [] => None | x :: _ => Some x end.
(** one pass: the children once treated, or those left when one was dropped *)
Fixpoint one_pass (f : tree -> res tree) (done rest : list tree) : res (list tree * bool) :=
  match rest with
  | [] => Ok (done, false)
  | x :: r => match f x with
    | Ok y => one_pass f (done ++ [y]) r
    | Err Edata => Ok (done ++ r, true)
    | Err e => Err e
    end
  end.
Fixpoint passes (n : nat) (f : tree -> res tree) (l : list tree) : res (list tree) :=
  match n with
  | O => Err Fuel
  | S n => let* '(l', again) := one_pass f [] l in if again : bool then passes n f l' else Ok l'
  end.
Definition all_children (f : tree -> res tree) (l : list tree) : res (list tree) := passes (S (length l)) f l.
Fixpoint finalize (depth : nat) (archive : N) (deleted : datetime) (ign : N) (t : tree) : res tree :=
  match depth with
  | O => Err Fuel
  | S depth =>
    let 'Tree n m c k := t in
    let* m' := finalize_mods m archive deleted ign in
    let* c' := finalize_chg m c archive deleted ign in
    match k with
    | None => Ok (Tree n m' c' None)
    | Some l =>
      let* '(set, st) := get_data m' date0 false in
      let* _ := match st with
                | not_found => if fst (fix_corruption (Tree n m' c' k)) then Err Edata else Err Erange
                | _ => Ok tt
                end in
      match last_of set with
      | None => Err Ebug
      | Some a => match mfind a m' with
        | None => Err Ebug
        | Some s =>
          let* l' := all_children (finalize depth archive (date s) ign) l in
          Ok (Tree n m' c' (Some l'))
        end
      end
    end
  end.
Fixpoint tree_depth (t : tree) : nat :=
  let 'Tree _ _ _ k := t in match k with None => 1%nat | Some l => S (fold_right (fun x n => Nat.max (tree_depth x) n) O l) end.
Definition finalize_except_self (archive : N) (deleted : datetime) (ign : N) (t : tree) : res tree :=
  let 'Tree n m c k := t in
  match k with
  | None => Err Ebug
  | Some l => let* l' := all_children (finalize (tree_depth t) archive deleted ign) l in Ok (Tree n m c (Some l'))
  end.

(** ** Adding an archive *)
(** what data_dir::add looks at in a catalogue entry: an inode (of file, directory or another kind) or a removed entry *)
Inductive saved_status := ss_saved | ss_inode_only | ss_fake | ss_not_saved | ss_delta.
Inductive ea_status := ea_none | ea_partial | ea_fake | ea_full | ea_removed.
Record inode_info := Ino { i_saved : saved_status; i_ea : ea_status; i_mtime : datetime; i_ctime : datetime;
                           i_crc : option crc; i_base : option crc; i_result : option crc; i_isfile : bool }.
Inductive centry :=
  | CInode (name : list N) (i : inode_info) (children : option (list centry))   (* Some: a directory *)
  | CDetruit (name : list N) (d : datetime)
  | COther.                                                                       (* entries that are neither *)
Fixpoint name_eqb (a b : list N) : bool :=
  match a, b with [], [] => true | x :: a', y :: b' => (x =? y) && name_eqb a' b' | _, _ => false end.
(** read_child, data_dir.cpp:269-283 *)
Fixpoint read_child (name : list N) (l : list tree) : option tree :=
  match l with [] => None | t :: r => if name_eqb (t_name t) name then Some t else read_child name r end.
(** replacing the child: the C++ modifies it in place through the pointer find_or_addition returned (data_dir.cpp:179) *)
Fixpoint put_child (t : tree) (l : list tree) : list tree :=
  match l with [] => [t] | x :: r => if name_eqb (t_name x) (t_name t) then t :: r else x :: put_child t r end.
(** remove_child, data_dir.cpp:599-613 *)
Fixpoint del_child (name : list N) (l : list tree) : list tree :=
  match l with [] => [] | x :: r => if name_eqb (t_name x) name then r else x :: del_child name r end.
(** find_or_addition, data_dir.cpp:133-173: returns the children with the wanted child in place *)
Definition find_or_addition (name : list N) (is_dir : bool) (l : list tree) : tree * list tree :=
  match read_child name l with
  | None => let t := Tree name [] [] (if is_dir then Some [] else None) in (t, l ++ [t])
  | Some t => match t_kids t with
    | None => if is_dir then let t' := Tree (t_name t) (t_mods t) (t_chg t) (Some []) in (t', del_child name l ++ [t']) else (t, l)
    | Some _ => (t, l)
    end
  end.
(** add(cat_inode), data_dir.cpp:175-252 *)
Definition add_inode (t : tree) (i : inode_info) (a : N) : res tree :=
  let 'Tree n m c k := t in
  let d := if dgt (i_mtime i) (i_ctime i) then i_mtime i else i_ctime i in
  let res_any := match i_crc i with Some x => Some x | None => i_result i end in
  let* m := match i_saved i with
    | ss_saved | ss_fake => set_data m a d et_saved None (if i_isfile i then i_crc i else None)
    | ss_delta => if i_isfile i then set_data m a d et_patch (i_base i) (i_result i) else Err Ebug
    | ss_inode_only => if i_isfile i then set_data m a d et_inode (i_base i) res_any else set_data m a d et_inode None None
    | ss_not_saved => if i_isfile i then set_data m a d et_present (i_base i) res_any else set_data m a d et_present None None
    end in
  let* c := match i_ea i with
    | ea_none => Ok c
    | ea_removed =>
      let* '(_, r) := get_EA c date0 false in
      match r with found_present | not_restorable => Ok (set_EA c a (i_ctime i) et_removed) | _ => Ok c end
    | ea_partial => Ok (set_EA c a (i_ctime i) et_present)
    | ea_fake | ea_full => Ok (set_EA c a (i_ctime i) et_saved)
    end in
  Ok (Tree n m c k).
(** add(cat_detruit), data_dir.cpp:254-267 *)
Definition add_detruit (t : tree) (d : datetime) (a : N) : res tree :=
  let 'Tree n m c k := t in
  let* '(_, r) := get_data m date0 false in
  let* m := match r with found_present | not_restorable => set_data m a d et_removed None None | _ => Ok m end in
  let* '(_, r) := get_EA c date0 false in
  let c := match r with found_present | not_restorable => set_EA c a d et_removed | _ => c end in
  Ok (Tree n m c k).
(** data_tree_update_with, data_dir.cpp:536-578 *)
Fixpoint update_entry (e : centry) (a : N) (l : list tree) : res (list tree) :=
  match e with
  | COther => Ok l
  | CDetruit n d =>
    if is_null d then Ok l
    else let '(t, l) := find_or_addition n false l in let* t := add_detruit t d a in Ok (put_child t l)
  | CInode n i ch =>
    let '(t, l) := find_or_addition n (match ch with Some _ => true | None => false end) l in
    let* t := add_inode t i a in
    match ch with
    | None => Ok (put_child t l)
    | Some es =>
      match t_kids t with
      | None => Err Ebug
      | Some kids =>
        let* kids := (fix go es kids := match es with [] => Ok kids | e :: r => let* kids := update_entry e a kids in go r kids end) es kids in
        Ok (put_child (Tree (t_name t) (t_mods t) (t_chg t) (Some kids)) l)
      end
    end
  end.
Fixpoint update_with (es : list centry) (a : N) (l : list tree) : res (list tree) :=
  match es with [] => Ok l | e :: r => let* l := update_entry e a l in update_with r a l end.

(** ** The database, i_database.hpp: coordinate (of which only the date of the root is used here; index 0 is never used) and files *)
Record database := Db { coord : list datetime; files : tree }.
(** get_root_last_mod, i_database.cpp:988-994 *)
Definition root_last_mod (db : list datetime) (n : N) : res datetime :=
  match nth_error db (N.to_nat n) with Some d => Ok d | None => Err Ebug end.
(** i_database(dialog), i_database.cpp:56-70: an empty root and the unused entry 0 *)
Definition new_database : database := Db [date0] (Tree [] [] [] (Some [])).
(** add_archive, i_database.cpp:288-331 *)
Definition add_archive (db : database) (root : datetime) (contents : list centry) : res database :=
  let number := N.of_nat (length (coord db)) in
  let coord' := coord db ++ [root] in
  let 'Tree n m c k := files db in
  match k with
  | None => Err Ebug
  | Some l =>
    let* l := update_with contents number l in
    let t := Tree n m c (Some l) in
    if 1 <? number then
      let* d := root_last_mod coord' number in
      let* t := finalize_except_self number d 0 t in Ok (Db coord' t)
    else Ok (Db coord' t)
  end.
(** deque::erase and insert *)
Definition erase_at {A} (i : nat) (l : list A) : list A := firstn i l ++ skipn (S i) l.
Definition insert_at {A} (i : nat) (x : A) (l : list A) : list A := firstn i l ++ x :: skipn i l.
(** remove_archive, i_database.cpp:333-359: archives max, max-1 ... min; the numbering is direct (get_real_archive_num) *)
Definition remove_one (db : database) (i : N) : res database :=
  let* '(t, _) := remove_all_from i (N.of_nat (length (coord db)) - 1) (files db) in
  Ok (Db (erase_at (N.to_nat i) (coord db)) (skip_out i t)).
Fixpoint remove_down (n : nat) (i : N) (db : database) : res database :=
  match n with O => Ok db | S n => let* db := remove_one db i in remove_down n (i - 1) db end.
Definition remove_archive (db : database) (min max : N) : res database :=
  if (min =? 0) || (max =? 0) then Err Erange
  else if max <? min then Err Erange
  else if N.of_nat (length (coord db)) <=? max then Err Erange
  else remove_down (N.to_nat (max + 1 - min)) max db.
(** set_permutation, i_database.cpp:453-511 *)
Definition refinalize_list (src dst size : N) : list N :=   (* the set re_finalize, in increasing order *)
  if src <? dst then [src; dst] ++ (if dst + 1 <? size then [dst + 1] else [])
  else
    let a := if dst + 1 <? size then [dst + 1] else [] in
    let b := if (src + 1 <? size) && negb (src =? dst) then [src + 1] else [] in
    [dst] ++ a ++ b.
Fixpoint refinalize (cs : list datetime) (l : list N) (t : tree) : res tree :=
  match l with
  | [] => Ok t
  | a :: r => let* d := root_last_mod cs a in let* t := finalize_except_self a d (a + 1) t in refinalize cs r t
  end.
Definition set_permutation (db : database) (src dst : N) : res database :=
  let size := N.of_nat (length (coord db)) in
  if (size <=? src) || (src =? 0) then Err Erange
  else if (size <=? dst) || (dst =? 0) then Err Erange
  else
    let* moved := root_last_mod (coord db) src in
    let cs := insert_at (N.to_nat dst) moved (erase_at (N.to_nat src) (coord db)) in
    let* t := apply_permutation src dst (files db) in
    let* t := refinalize cs (refinalize_list src dst (N.of_nat (length cs))) t in
    Ok (Db cs t).

(** data_tree_find, data_dir.cpp:503-534: the entry of a path given as the list of its components *)
Fixpoint tree_find (p : list (list N)) (t : tree) : option tree :=
  match p with
  | [] => Some t
  | n :: r => match t_kids t with
    | None => None
    | Some l => match read_child n l with None => None | Some t' => tree_find r t' end
    end
  end.

(** the archives dar is called for, for one file, by restore(), i_database.cpp:668-744: (data set, EA archive) then the arguments given *)
Definition restore_plan (m : amap statusp) (c : amap status) (d : datetime) (ewr : bool) : res (list N) :=
  let* '(num_data, look_data) := get_data m d ewr in
  let* '(_, look_ea) := get_EA c d ewr in
  let num_data := match look_data with found_present => num_data | _ => [] end in
  let num_ea := match look_ea with found_present | found_removed | not_found | not_restorable => 0 end in
  if (num_ea =? 0) && is_nil num_data then Ok []
  else Ok ((if negb (num_ea =? 0) && existsb (N.eqb num_ea) num_data then [num_ea] else []) ++ num_data).
