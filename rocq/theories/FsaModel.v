(** * FsaModel: lists of filesystem specific attributes

    Models src/libdar/filesystem_specific_attribute.cpp and .hpp: the sorted list (add,
    operator +, find), the comparison used by dar -d (is_included_in), storing and reading
    back, and the restoration of the Linux flags of a file (set_extX_FSA_to).

    Simplifications: std::sort is an insertion sort (same result as soon as no two elements
    compare equal); the attribute class fsa_infinint, which no nature uses, is left out;
    messages to the user are left out; all the EXT2_*_FL constants are supposed available at
    compilation time, as they are on Linux. *)
From Coq Require Import List.
From Verif Require Import Base InfinintModel DatetimeModel.
Local Open Scope N_scope.

(** fsa_family.hpp:43-62 *)
Inductive family := Hfs | ExtX.
Inductive nature :=
| Creation_date | Append_only | Compressed | No_dump | Immutable | Data_journaling | Secure_deletion
| No_tail_merging | Undeletable | Noatime_update | Synchronous_directory | Synchronous_update | Top_of_dir_hierarchy.

(** The order of the enumerations, used by operator <. *)
Definition fam_rank (f : family) : N := match f with Hfs => 0 | ExtX => 1 end.
Definition nat_rank (n : nature) : N :=
  match n with
  | Creation_date => 1 | Append_only => 2 | Compressed => 3 | No_dump => 4 | Immutable => 5 | Data_journaling => 6
  | Secure_deletion => 7 | No_tail_merging => 8 | Undeletable => 9 | Noatime_update => 10
  | Synchronous_directory => 11 | Synchronous_update => 12 | Top_of_dir_hierarchy => 13
  end.

(** fsa_bool and fsa_time, filesystem_specific_attribute.hpp:261-343 *)
Inductive value := VBool (b : bool) | VTime (d : datetime).
Record fsa := { fam : family; ntr : nature; v : value }.

(** operator <, filesystem_specific_attribute.cpp:118-127 *)
Definition fsa_lt (a b : fsa) : bool :=
  if fam_rank (fam a) <? fam_rank (fam b) then true
  else if fam_rank (fam b) <? fam_rank (fam a) then false
  else nat_rank (ntr a) <? nat_rank (ntr b).

(** is_same_type_as, :112-116 *)
Definition same_type (a b : fsa) : bool :=
  (fam_rank (fam a) =? fam_rank (fam b)) && (nat_rank (ntr a) =? nat_rank (ntr b)).

(** equal_value_to, :1259-1268 and :1305-1314 *)
Definition equal_value (a b : value) : bool :=
  match a, b with
  | VBool x, VBool y => Bool.eqb x y
  | VTime x, VTime y => dt_eq x y
  | _, _ => false
  end.

(** operator ==, filesystem_specific_attribute.hpp:93 *)
Definition fsa_eq (a b : fsa) : bool := same_type a b && equal_value (v a) (v b).

(** binary_search_in_sorted_list, :81-108, from the second line of the do loop on.  [fuel]
    bounds the number of halvings. *)
Fixpoint bsearch (fuel : nat) (table : list fsa) (x : fsa) (min max : nat) : bool * nat :=
  match fuel with
  | O => (false, O)
  | S fuel' =>
    let index := Nat.div2 (min + max) in
    match nth_error table index with
    | None => (false, O)
    | Some t =>
      let min' := if fsa_lt t x then S index else min in
      let max' := if fsa_lt t x then max else index in
      if negb (same_type t x) && Nat.ltb min' max' then bsearch fuel' table x min' max'
      else
        let index' := if Nat.leb max' min' then min' else index in
        (Nat.ltb min' (length table) &&
           match nth_error table index' with Some u => same_type u x | None => false end, index')
    end
  end.

(** The beginning of it: an empty table, then min = 0 and max = size. *)
Definition binary_search (table : list fsa) (x : fsa) : bool * nat :=
  match table with
  | [] => (false, O)
  | _ => bsearch (S (length table)) table x O (length table)
  end.

(** fsa[index] = rep, :467-476 *)
Fixpoint replace (l : list fsa) (i : nat) (x : fsa) : list fsa :=
  match l, i with
  | [], _ => []
  | _ :: r, O => x :: r
  | y :: r, S i' => y :: replace r i' x
  end.

(** priv_add, :454-502: replacing the one of the same type, or inserting at the place found. *)
Definition priv_add (l : list fsa) (x : fsa) : list fsa :=
  let '(found, index) := binary_search l x in
  if found then replace l index x else firstn index l ++ x :: skipn index l.

(** sort_fsa, :505-508 *)
Fixpoint insert (x : fsa) (l : list fsa) : list fsa :=
  match l with
  | [] => [x]
  | y :: r => if fsa_lt y x then y :: insert x r else x :: l
  end.
Fixpoint sort (l : list fsa) : list fsa :=
  match l with [] => [] | x :: r => insert x (sort r) end.

(** add, :159-164 *)
Definition add (l : list fsa) (x : fsa) : list fsa := sort (priv_add l x).

(** operator +, :391-408 *)
Definition plus (l arg : list fsa) : list fsa := sort (fold_left priv_add arg l).

(** find, :410-422 *)
Definition find (l : list fsa) (f : family) (n : nature) : option fsa :=
  let '(found, index) := binary_search l {| fam := f; ntr := n; v := VBool true |} in
  if found then nth_error l index else None.

(** has_linux_immutable_set, :330-345; a value that is not a boolean is SRC_BUG. *)
Definition has_linux_immutable_set (l : list fsa) : res bool :=
  match find l ExtX Immutable with
  | Some a => match v a with VBool b => Ok b | VTime _ => Err Ebug end
  | None => Ok false
  end.

(** The inner loop of is_included_in, :191-196: after each step forward the element reached
    is looked at before testing for the end of the list. *)
Fixpoint advance (a : fsa) (rt : list fsa) : res (list fsa) :=
  match rt with
  | [] => Ok []
  | r :: rest =>
    if fsa_lt r a then match rest with [] => Err UB | _ => advance a rest end
    else Ok rt
  end.

Definition in_scope (scope : list family) (f : family) : bool := existsb (fun g => fam_rank g =? fam_rank f) scope.

(** is_included_in, :166-209 *)
Fixpoint is_included_in (l rt : list fsa) (scope : list family) : res bool :=
  match l with
  | [] => Ok true
  | a :: l' =>
    match rt with
    | [] => Ok false
    | _ =>
      if in_scope scope (fam a) then
        let* rt' := advance a rt in
        match rt' with
        | [] => Ok false
        | r :: _ => if fsa_eq r a then is_included_in l' rt' scope else Ok false
        end
      else is_included_in l' rt scope
    end
  end.

(** ** Storage *)

(** family_to_signature and nature_to_signature, :1096-1179 *)
Definition fam_sig (f : family) : N := match f with Hfs => 104 | ExtX => 108 end.
Definition nat_sig (n : nature) : list N :=
  match n with
  | Creation_date => [97; 97] | Append_only => [98; 97] | Compressed => [98; 98] | No_dump => [98; 99]
  | Immutable => [98; 100] | Data_journaling => [98; 101] | Secure_deletion => [98; 102] | No_tail_merging => [98; 103]
  | Undeletable => [98; 104] | Noatime_update => [98; 105] | Synchronous_directory => [98; 106]
  | Synchronous_update => [98; 107] | Top_of_dir_hierarchy => [98; 108]
  end.

(** signature_to_family, :1181-1192 *)
Definition sig_fam (c : N) : res family := if c =? 104 then Ok Hfs else if c =? 108 then Ok ExtX else Err Erange.

(** signature_to_nature, :1194-1230 *)
Definition sig_nat (c d : N) : res nature :=
  if (c =? 97) && (d =? 97) then Ok Creation_date
  else if c =? 98 then
    match d with
    | 97 => Ok Append_only | 98 => Ok Compressed | 99 => Ok No_dump | 100 => Ok Immutable | 101 => Ok Data_journaling
    | 102 => Ok Secure_deletion | 103 => Ok No_tail_merging | 104 => Ok Undeletable | 105 => Ok Noatime_update
    | 106 => Ok Synchronous_directory | 107 => Ok Synchronous_update | 108 => Ok Top_of_dir_hierarchy
    | _ => Err Erange
    end
  else Err Erange.

(** fsa_bool::write, .hpp:274, and fsa_time::write *)
Definition write_value (x : value) : res (list N) :=
  match x with VBool b => Ok [if b then 84 else 70] | VTime d => dt_dump d end.

(** One attribute, :293-301 *)
Definition write_one (a : fsa) : res (list N) :=
  let* b := write_value (v a) in Ok (fam_sig (fam a) :: nat_sig (ntr a) ++ b).

Fixpoint write_all (l : list fsa) : res (list N) :=
  match l with
  | [] => Ok []
  | a :: r => let* x := write_one a in let* y := write_all r in Ok (x ++ y)
  end.

(** write, :282-304 *)
Definition write (l : list fsa) : res (list N) :=
  let* y := write_all l in Ok (dumpN (N.of_nat (length l)) ++ y).

(** fsa_bool::fsa_bool(generic_file &), :1234-1256 *)
Definition read_bool (f : list N) : res (value * list N) :=
  match f with
  | [] => Err Erange
  | c :: r => if c =? 84 then Ok (VBool true, r) else if c =? 70 then Ok (VBool false, r) else Err Edata
  end.

(** One attribute, :224-266 *)
Definition read_one (ver : N) (f : list N) : res (fsa * list N) :=
  match f with
  | c :: f1 =>
    let* fa := sig_fam c in
    match f1 with
    | d :: e :: f2 =>
      let* na := sig_nat d e in
      let* '(x, f3) := match na with
                       | Creation_date => let* '(t, f3) := dt_read ver f2 in Ok (VTime t, f3)
                       | _ => read_bool f2
                       end in
      Ok ({| fam := fa; ntr := na; v := x |}, f3)
    | _ => Err Erange
    end
  | [] => Err Erange
  end.

Fixpoint read_loop (n : nat) (ver : N) (f : list N) : res (list fsa * list N) :=
  match n with
  | O => Ok ([], f)
  | S n' =>
    let* '(a, f) := read_one ver f in
    let* '(l, f) := read_loop n' ver f in
    Ok (a :: l, f)
  end.

(** read, :211-280.  The number of attributes is drained by pieces of an U_I (C04); the
    loops together run that number of times. *)
Definition read (ver : N) (f : list N) : res (list fsa * list N) :=
  let* '(n, f) := readN f in
  let* '(l, f) := read_loop (N.to_nat n) ver f in
  Ok (sort l, f).

(** datetime::get_storage_size, datetime.cpp:184-194 *)
Definition dt_storage_size (d : datetime) : res N :=
  let* '(sec, sub) := get_value d (uni d) in
  Ok (N.of_nat (length (dumpN sec)) + (if unit_lt (uni d) tu_s then N.of_nat (length (dumpN sub)) + 1 else 0)).

(** storage_size, :373-389, with the one of fsa_bool (.hpp:275) and of fsa_time (.hpp:331) *)
Definition value_size (x : value) : res N := match x with VBool _ => Ok 1 | VTime d => dt_storage_size d end.
Fixpoint sizes (l : list fsa) : res N :=
  match l with [] => Ok 0 | a :: r => let* s := value_size (v a) in let* t := sizes r in Ok (s + 3 + t) end.
Definition storage_size (l : list fsa) : res N :=
  let* s := sizes l in Ok (N.of_nat (length (dumpN (N.of_nat (length l)))) + s).

(** ** Restoring the flags of a file, set_extX_FSA_to, :699-1071 *)

(** The bit of each flag in linux/fs.h (EXT2_SECRM_FL and following); a date has none. *)
Definition bit (n : nature) : option N :=
  match n with
  | Creation_date => None
  | Secure_deletion => Some 0 | Undeletable => Some 1 | Compressed => Some 2 | Synchronous_update => Some 3
  | Immutable => Some 4 | Append_only => Some 5 | No_dump => Some 6 | Noatime_update => Some 7
  | Data_journaling => Some 14 | No_tail_merging => Some 15 | Synchronous_directory => Some 16 | Top_of_dir_hierarchy => Some 17
  end.

Definition is_immutable (n : nature) : bool := match n with Immutable => true | _ => false end.

(** The loop computing the wanted flags, :748-946: [imm] is set_immutable; the immutable
    flag is only treated when it is set, the others only when it is not. *)
Definition set_one (imm : bool) (f : N) (a : fsa) : N :=
  match fam a with
  | Hfs => f
  | ExtX =>
    match bit (ntr a) with
    | None => f
    | Some i =>
      if Bool.eqb imm (is_immutable (ntr a)) then
        match v a with
        | VBool true => N.setbit f i
        | VBool false => N.clearbit f i
        | VTime _ => f
        end
      else f
    end
  end.

(** :954-967 *)
Definition mask_IMMUT : N := 48.       (* EXT2_APPEND_FL | EXT2_IMMUTABLE_FL *)
Definition mask_SYS_RES : N := 16384.  (* EXT3_JOURNAL_DATA_FL *)

(** What capability_* answers (capabilities.hpp): capa_clear, or capa_set / capa_unknown. *)
Record kenv := { k_get : bool; k_set1 : bool; k_capa_immut : bool; k_set2 : bool; k_capa_sys : bool; k_set3 : bool }.

(** The whole of it on a file whose flags are [orig]: the flags afterwards, and what is
    returned. *)
Definition set_extX (imm : bool) (l : list fsa) (k : kenv) (orig : N) : N * res bool :=
  if existsb (fun a => match fam a with ExtX => true | Hfs => false end) l then
    if k_get k then
      let f := fold_left (set_one imm) l orig in
      (* step 1, :976-988 *)
      let tmp := N.lor (N.ldiff (N.ldiff f mask_IMMUT) mask_SYS_RES) (N.land orig (N.lor mask_IMMUT mask_SYS_RES)) in
      if negb (tmp =? orig) && negb (k_set1 k) then (orig, Err Erange)
      else
        let ret1 := negb (tmp =? orig) in
        (* step 2, :992-1017 *)
        let tmp2 := N.lor (N.land f mask_IMMUT) (N.ldiff tmp mask_IMMUT) in
        let do2 := negb (N.land f mask_IMMUT =? N.land tmp mask_IMMUT) && k_capa_immut k && k_set2 k in
        let d2 := if do2 then tmp2 else tmp in
        (* step 3, :1021-1046 *)
        let tmp3 := N.lor (N.land f mask_SYS_RES) (N.ldiff d2 mask_SYS_RES) in
        let do3 := negb (N.land f mask_SYS_RES =? N.land d2 mask_SYS_RES) && k_capa_sys k && k_set3 k in
        (if do3 then tmp3 else d2, Ok (ret1 || do2 || do3))
    else (orig, Err Erange)
  else (orig, Ok false).
