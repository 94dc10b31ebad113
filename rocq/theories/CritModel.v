(** * Model of the overwriting policies: criteria (src/libdar/criterium.cpp, .hpp) and actions (crit_action.cpp, .hpp).

    Memory management (clone, gobe as a transfer of pointers) is left out: an operand list is a list. *)
From Verif Require Import Base NumModel InfinintModel DatetimeModel CrcModel DbModel.
Open Scope N_scope.

(** the classes derived from cat_inode; cat_door derives from cat_file (cat_door.hpp:45), cat_chardev and cat_blockdev from cat_device *)
Inductive kind := K_file | K_door | K_lien | K_dir | K_char | K_block | K_tube | K_prise | K_ignored_dir.
(** what the criteria look at in an inode. e_size, e_dirty, e_sparse, e_sig are meaningful for a cat_file, e_major and e_minor for a
    cat_device, e_target for a cat_lien; e_ea_count and e_ea_space are those of get_ea() *)
Record ino := Inode { e_kind : kind; e_uid : N; e_gid : N; e_perm : N; e_mtime : datetime; e_ctime : datetime; e_saved : saved_status;
  e_size : N; e_dirty : bool; e_sparse : bool; e_sig : bool; e_major : N; e_minor : N; e_target : list N;
  e_ea : ea_status; e_ea_count : N; e_ea_space : N }.
(** cat_nomme: an inode, a cat_mirage (hard link to an inode; is_first_mirage), a cat_detruit or a cat_ignored *)
Inductive entry := EInode (i : ino) | EMirage (i : ino) (first : bool) | EDetruit | EIgnored.

(** get_inode, criterium.cpp:600-611 *)
Definition get_inode (e : entry) : option ino := match e with EInode i => Some i | EMirage i _ => Some i | _ => None end.
(** dynamic_cast<const cat_file *>(get_inode(..)) *)
Definition is_file_kind (k : kind) : bool := match k with K_file | K_door => true | _ => false end.
Definition get_file (e : entry) : option ino :=
  match get_inode e with Some i => if is_file_kind (e_kind i) then Some i else None | None => None end.
Definition saved_eqb (a b : saved_status) : bool :=
  match a, b with
  | ss_saved, ss_saved | ss_inode_only, ss_inode_only | ss_fake, ss_fake | ss_not_saved, ss_not_saved | ss_delta, ss_delta => true
  | _, _ => false
  end.

Inductive crit :=
  | C_is_inode | C_is_dir | C_is_file | C_hardlinked | C_new_hardlinked
  | C_data_recent (h : N) | C_data_recent_to (date h : N) | C_data_bigger | C_data_saved | C_dirty | C_sparse | C_sig | C_patch
  | C_same_data | C_EA_present | C_EA_recent (h : N) | C_EA_recent_to (date h : N) | C_more_EA | C_EA_bigger | C_EA_saved | C_same_type
  | C_not (c : crit) | C_invert (c : crit) | C_and (l : list crit) | C_or (l : list crit).

(** crit_same_type, criterium.cpp:399-432: the first of the listed classes both belong to *)
Definition same_class (a b : kind) : bool :=
  match a, b with
  | (K_file | K_door), (K_file | K_door) => true
  | K_lien, K_lien | K_dir, K_dir | K_char, K_char | K_block, K_block | K_tube, K_tube | K_prise, K_prise => true
  | _, _ => false
  end.
Definition same_type (a b : entry) : bool :=
  match a, b with
  | EDetruit, EDetruit => true
  | _, _ => match get_inode a, get_inode b with Some i, Some j => same_class (e_kind i) (e_kind j) | _, _ => false end
  end.
(** crit_in_place_is_inode, criterium.cpp:44-48 *)
Definition is_inode (a : entry) : bool := match a with EInode _ | EMirage _ _ => true | _ => false end.
Fixpoint bytes_eqb (a b : list N) : bool :=
  match a, b with [], [] => true | x :: a', y :: b' => (x =? y) && bytes_eqb a' b' | _, _ => false end.
(** crit_same_inode_data, criterium.cpp:158-239 *)
Definition is_device (k : kind) : bool := match k with K_char | K_block => true | _ => false end.
Definition is_lien (k : kind) : bool := match k with K_lien => true | _ => false end.
Definition same_inode_data (a b : entry) : res bool :=
  if negb (same_type a b) then Ok false
  else if negb (is_inode a) then Ok false
  else match get_inode a, get_inode b with
  | Some i, Some j =>
    if negb (e_uid i =? e_uid j) then Ok false
    else if negb (e_gid i =? e_gid j) then Ok false
    else if negb (e_perm i =? e_perm j) then Ok false
    else if negb (dt_eq (e_mtime i) (e_mtime j)) then Ok false
    else
    let* size_ok := if is_file_kind (e_kind i) then
                      if is_file_kind (e_kind j) then Ok (e_size i =? e_size j) else Err Ebug
                    else Ok true in
    if negb size_ok then Ok false
    else
    let* dev := if is_device (e_kind i) && saved_eqb (e_saved i) ss_saved then
                  if negb (is_device (e_kind j)) then Err Ebug
                  else if negb (saved_eqb (e_saved j) ss_saved) then Ok (Some true)
                  else if negb (e_major i =? e_major j) then Ok (Some false)
                  else if negb (e_minor i =? e_minor j) then Ok (Some false)
                  else Ok None
                else Ok None in
    match dev with
    | Some r => Ok r
    | None =>
      if is_lien (e_kind i) && saved_eqb (e_saved i) ss_saved then
        if negb (is_lien (e_kind j)) then Err Ebug
        else if negb (saved_eqb (e_saved j) ss_saved) then Ok true
        else Ok (bytes_eqb (e_target i) (e_target j))
      else Ok true
    end
  | _, _ => Err Ebug
  end.
(** the ctime used when comparing EA, criterium.cpp:257-270 *)
Definition has_ea (s : ea_status) : bool := match s with ea_none | ea_removed => false | _ => true end.
Definition ea_ctime (e : entry) : datetime :=
  match get_inode e with Some i => if has_ea (e_ea i) then e_ctime i else date0 | None => date0 end.
Definition ea_full_or_0 (f : ino -> N) (e : entry) : N :=
  match get_inode e with Some i => match e_ea i with ea_full => f i | _ => 0 end | None => 0 end.

(** evaluate, criterium.cpp:44-590 and criterium.hpp (crit_not, crit_invert). [cap] is the precision of the system (loose_diff). *)
Fixpoint evaluate (cap : time_unit) (c : crit) (a b : entry) : res bool :=
  match c with
  | C_is_inode => Ok (is_inode a)
  | C_is_dir => Ok (match a with EInode i => match e_kind i with K_dir => true | _ => false end | _ => false end)
  | C_is_file => Ok (match get_inode a with Some i => match e_kind i with K_file => true | _ => false end | None => false end)
  | C_hardlinked => Ok (match a with EMirage _ _ => true | _ => false end)
  | C_new_hardlinked => Ok (match a with EMirage _ f => f | _ => false end)
  | C_data_recent h =>
    let d1 := match get_inode a with Some i => e_mtime i | None => date0 end in
    let d2 := match get_inode b with Some i => e_mtime i | None => date0 end in
    match get_inode a with
    | None => Ok true
    | Some _ => if dge d1 d2 then Ok true else equal_with_hourshift cap h d1 d2
    end
  | C_data_recent_to d h =>
    match get_inode a with
    | None => Ok true
    | Some i => if dge (e_mtime i) (dt_seconds d) then Ok true else equal_with_hourshift cap h (e_mtime i) (dt_seconds d)
    end
  | C_data_bigger => Ok (match get_file a, get_file b with Some i, Some j => e_size j <=? e_size i | _, _ => true end)
  | C_data_saved => Ok (match get_inode a with Some i => saved_eqb (e_saved i) ss_saved | None => true end)
  | C_dirty => Ok (match get_file a with Some i => e_dirty i | None => false end)
  | C_sparse => Ok (match get_file a with Some i => e_sparse i | None => false end)
  | C_sig => Ok (match get_file a with Some i => e_sig i | None => false end)
  | C_patch => Ok (match get_file a with Some i => saved_eqb (e_saved i) ss_delta | None => false end)
  | C_same_data => same_inode_data a b
  | C_EA_present => Ok (match a with EInode i => has_ea (e_ea i) | _ => false end)
  | C_EA_recent h =>
    match get_inode b with
    | None => Ok true
    | Some j => if negb (has_ea (e_ea j)) then Ok true
                else if dge (ea_ctime a) (e_ctime j) then Ok true else equal_with_hourshift cap h (ea_ctime a) (e_ctime j)
    end
  | C_EA_recent_to d h => if dge (ea_ctime a) (dt_seconds d) then Ok true else equal_with_hourshift cap h (ea_ctime a) (dt_seconds d)
  | C_more_EA => Ok (ea_full_or_0 e_ea_count b <=? ea_full_or_0 e_ea_count a)
  | C_EA_bigger => Ok (ea_full_or_0 e_ea_space b <=? ea_full_or_0 e_ea_space a)
  | C_EA_saved => Ok (match get_inode a with Some i => match e_ea i with ea_full => true | _ => false end | None => false end)
  | C_same_type => Ok (same_type a b)
  | C_not c => let* r := evaluate cap c a b in Ok (negb r)
  | C_invert c => evaluate cap c b a
  | C_and [] => Err Erange
  | C_and l => (fix go l := match l with [] => Ok true | c :: r => let* x := evaluate cap c a b in if x : bool then go r else Ok false end) l
  | C_or [] => Err Erange
  | C_or l => (fix go l := match l with [] => Ok false | c :: r => let* x := evaluate cap c a b in if x : bool then Ok true else go r end) l
  end.

(** ** Actions *)
(** over_action_data and over_action_ea, crit_action.hpp:36-66 *)
Inductive adata := D_preserve | D_overwrite | D_preserve_mark | D_overwrite_mark | D_remove | D_undefined | D_ask.
Inductive aea := A_preserve | A_overwrite | A_clear | A_preserve_mark | A_overwrite_mark | A_merge_preserve | A_merge_overwrite | A_undefined | A_ask.
Definition d_undef (d : adata) : bool := match d with D_undefined => true | _ => false end.
Definition e_undef (e : aea) : bool := match e with A_undefined => true | _ => false end.
(** crit_constant_action, testing, crit_chain *)
Inductive policy := P_const (d : adata) (e : aea) | P_test (c : crit) (t f : policy) | P_chain (l : list policy).
(** get_action, crit_action.hpp:128 and 159-165, crit_action.cpp:133-165 *)
Fixpoint get_action (cap : time_unit) (p : policy) (a b : entry) : res (adata * aea) :=
  match p with
  | P_const d e => Ok (d, e)
  | P_test c t f => let* x := evaluate cap c a b in if x : bool then get_action cap t a b else get_action cap f a b
  | P_chain [] => Err Erange
  | P_chain l =>
    (fix go l d e :=
      match l with
      | [] => Ok (d, e)
      | p :: r =>
        if d_undef d || e_undef e then
          let* '(td, te) := get_action cap p a b in
          go r (if d_undef d || negb (d_undef td) then td else d) (if e_undef e || negb (e_undef te) then te else e)
        else Ok (d, e)
      end) l D_undefined A_undefined
  end.

(** the confirmation asked before overwriting when merging, filtre.cpp:2038-2127: [ok_data] and [ok_ea] are the answers of the user
    (false: Euser_abort). In case of refusal for the EA the C++ modifies act_data. *)
Definition confirm_merge (ok_data ok_ea : bool) (d : adata) (e : aea) : adata * aea :=
  let d := match d with
    | D_overwrite | D_overwrite_mark | D_remove | D_preserve_mark => if ok_data then d else D_preserve
    | D_preserve | D_undefined | D_ask => d
    end in
  match e with
  | A_overwrite | A_clear | A_preserve_mark | A_overwrite_mark | A_merge_overwrite => if ok_ea then (d, e) else (D_preserve, e)
  | A_preserve | A_merge_preserve | A_ask | A_undefined => (d, e)
  end.
(** what is done of an action left undefined: when merging, filtre.cpp:2135 and 2167, 2317; when restoring,
    filesystem_restore.cpp:681-682, 877-878, 1038-1039 *)
Definition default_merge (d : adata) : res adata := match d with D_undefined => Ok D_preserve | _ => Ok d end.
Definition default_restore (d : adata) : res adata := match d with D_undefined => Err Erange | _ => Ok d end.
