(** C42: merging of two archives, and the decremental mode.

    Sources: src/libdar/filtre.cpp (filtre_merge 1709-1805, filtre_merge_step0 1807-1903, filtre_merge_step1 1905-2702, do_EFSA_transfert 4145-4505,
    merge_ea 4507-4520), src/libdar/catalogue.cpp (add 439-468, re_add_in 470-484, re_add_in_replace 486-492, read_if_present 351-383,
    remove_read_entry 385-390), src/libdar/cat_directory.cpp (copy constructor 60-64, operator= 72-80).

    The catalogues are those of RestoreModel.v. Left out: hard links, FSA, delta patches, metadata-only entries, the "fake" EA status,
    empty directories left in place of excluded ones (make_empty_dir), statistics, messages, cancellation, and step 2, which copies the
    data and EA of the selected entries to the new archive: what the entry holds goes with it here. A question to the user is part of
    the policy: its answer is the action. An exception while considering an entry (Erange...) ends the merging here; the code goes on
    with the next entry. *)
From Verif Require Import Base DatetimeModel DbModel CritModel RestoreModel.
From Coq Require Import NArith List Bool Lia.
Import ListNotations.
Open Scope N_scope.
Local Set Warnings "-notation-overridden".

(** what the criteria see of an entry of the catalogue *)
Definition kind_of (k : fkind) : kind :=
  match k with
  | KFile => K_file | KDir => K_dir | KLink => K_lien
  | KOther c => if c =? 99 then K_char else if c =? 98 then K_block else if c =? 115 then K_prise else if c =? 111 then K_door else K_tube
  end.
Definition ea_status_of (e : eastat) : ea_status :=
  match e with EA_none => ea_none | EA_partial => ea_partial | EA_full _ => ea_full | EA_removed => ea_removed end.
(** ea_attributs::size and space_used, ea.cpp:162-174 *)
Definition ea_space (e : eastat) : N :=
  match e with EA_full l => fold_left (fun a kv => a + N.of_nat (length (fst kv)) + N.of_nat (length (snd kv))) l 0 | _ => 0 end.
Definition ea_count (e : eastat) : N := match e with EA_full l => N.of_nat (length l) | _ => 0 end.
Definition ino_of (h : chead) : ino :=
  {| e_kind := kind_of (c_kind h); e_uid := c_uid h; e_gid := c_gid h; e_perm := c_perm h; e_mtime := c_mtime h; e_ctime := c_ctime h;
     e_saved := if c_saved h then ss_saved else ss_not_saved; e_size := c_size h; e_dirty := false; e_sparse := false; e_sig := false;
     e_major := nth 0 (c_data h) 0; e_minor := nth 1 (c_data h) 0; e_target := c_data h;
     e_ea := ea_status_of (c_ea h); e_ea_count := ea_count (c_ea h); e_ea_space := ea_space (c_ea h) |}.
Definition entry_of (x : cnode) : entry := match x with CIno h _ => EInode (ino_of h) | CDet _ => EDetruit | CIgn => EIgnored end.
(** overwrite->get_action(already_here, dolly), filtre.cpp:2031 *)
Definition policy_of (cap : time_unit) (p : policy) (in_place to_add : cnode) : res (adata * aea) :=
  get_action cap p (entry_of in_place) (entry_of to_add).

(** the policy of the decremental mode, filtre.cpp:1833-1898: "{E&R&~R&(A|!H)}[S*] P* ; {(e&~e&r&~r)|(!e&!~e)}[*s] *p" *)
Definition decr_policy : policy :=
  P_chain
    [P_test (C_and [C_same_data; C_data_recent 0; C_invert (C_data_recent 0); C_or [C_new_hardlinked; C_not C_hardlinked]])
       (P_const D_preserve_mark A_undefined) (P_const D_preserve A_undefined);
     P_test (C_or [C_and [C_EA_present; C_invert C_EA_present; C_EA_recent 0; C_invert (C_EA_recent 0)];
                   C_and [C_not C_EA_present; C_not (C_invert C_EA_present)]])
       (P_const D_undefined A_preserve_mark) (P_const D_undefined A_preserve)].

(** changes of a cat_inode of the catalogue: set_saved_status(not_saved), ea_set_saved_status / ea_attach with set_last_change *)
Definition drop_data (h : chead) : chead :=
  CHead (c_kind h) (c_uid h) (c_gid h) (c_perm h) (c_mtime h) (c_ctime h) (c_size h) false [] (c_ea h).
Definition put_ea (h : chead) (e : eastat) : chead :=
  CHead (c_kind h) (c_uid h) (c_gid h) (c_perm h) (c_mtime h) (c_ctime h) (c_size h) (c_saved h) (c_data h) e.
Definition put_ctime (h : chead) (d : datetime) : chead :=
  CHead (c_kind h) (c_uid h) (c_gid h) (c_perm h) (c_mtime h) d (c_size h) (c_saved h) (c_data h) (c_ea h).
Definition mark_ea (e : eastat) : eastat := match e with EA_full _ => EA_partial | _ => e end.
(** merge_ea, filtre.cpp:4507-4520: the first set, then what the second adds to it *)
Definition merge_ea (r1 r2 : list (list N * list N)) : list (list N * list N) :=
  r1 ++ filter (fun kv => match aget (fst kv) r1 with Some _ => false | None => true end) r2.
(** do_EFSA_transfert, filtre.cpp:4145-4505, for two inodes *)
Definition ea_transfert (a : aea) (place add : chead) : res chead :=
  match a with
  | A_overwrite =>
    Ok (put_ea (put_ctime place (c_ctime add))
          (match c_ea add with EA_none | EA_removed => EA_none | EA_partial => EA_partial | EA_full l => EA_full l end))
  | A_overwrite_mark => Ok (put_ea (put_ctime place (c_ctime add)) (mark_ea (c_ea add)))
  | A_merge_preserve =>
    Ok (match c_ea place, c_ea add with
        | EA_full p, EA_full l => put_ea place (EA_full (merge_ea p l))
        | _, EA_full l => put_ea place (EA_full l)
        | _, _ => place end)
  | A_merge_overwrite =>
    let place := put_ctime place (c_ctime add) in
    Ok (match c_ea place, c_ea add with
        | EA_full p, EA_full l => put_ea place (EA_full (merge_ea l p))
        | _, EA_full l => put_ea place (EA_full l)
        | _, _ => place end)
  | _ => Err Ebug
  end.

(** first category of actions, filtre.cpp:2133-2219: the entry in place is kept *)
Definition kept_entry (da : adata) (ea : aea) (y x : cnode) : res cnode :=
  match y with
  | CIno yh ych =>
    let yh := match da with D_preserve_mark => if c_saved yh then drop_data yh else yh | _ => yh end in
    let* yh := match ea with
      | A_preserve | A_undefined => Ok yh
      | A_overwrite | A_overwrite_mark | A_merge_preserve | A_merge_overwrite =>
        match x with CIno xh _ => ea_transfert ea yh xh | _ => Ok yh end
      | A_preserve_mark => Ok (put_ea yh (mark_ea (c_ea yh)))
      | A_clear => Ok (put_ea yh EA_none)
      | A_ask => Err Ebug
      end in
    Ok (CIno yh ych)
  | _ => match ea with A_ask => Err Ebug | _ => Ok y end
  end.
(** second category, filtre.cpp:2262-2362: the entry to add replaces it; al_ino and dolly_ino are dereferenced without a test for
    EA_clear (2345-2352) *)
Definition new_entry (da : adata) (ea : aea) (y x : cnode) : res cnode :=
  let xh0 := match x with
    | CIno xh _ => Some (match da with D_overwrite_mark => if c_saved xh then drop_data xh else xh | _ => xh end)
    | _ => None end in
  let back h := match x with CIno _ xch => CIno h xch | _ => x end in
  match ea with
  | A_ask => Err Ebug
  | A_overwrite => Ok (match xh0 with Some h => back h | None => x end)
  | A_overwrite_mark => Ok (match xh0 with Some h => back (put_ea h (mark_ea (c_ea h))) | None => x end)
  | A_clear =>
    match y with
    | CIno yh _ => match c_ea yh with
      | EA_none => Ok (match xh0 with Some h => back h | None => x end)
      | _ => match xh0 with Some h => Ok (back (put_ea h EA_none)) | None => Err Ebug end
      end
    | _ => Err Ebug
    end
  | A_preserve | A_undefined | A_merge_preserve | A_merge_overwrite | A_preserve_mark =>
    let act := match ea with A_merge_preserve => A_merge_overwrite | A_merge_overwrite => A_merge_preserve
                           | A_preserve_mark => A_overwrite_mark | _ => A_overwrite end in
    match xh0, y with
    | Some h, CIno yh _ => let* h := ea_transfert act h yh in Ok (back h)
    | Some h, _ => Ok (back h)
    | None, _ => Ok x
    end
  end.

Definition dir_of (x : cnode) : bool := match x with CIno h _ => is_dir (c_kind h) | _ => false end.
Definition below_of (x : cnode) : list (name * cnode) := match x with CIno _ c => c | _ => [] end.
Definition with_below (x : cnode) (c : list (name * cnode)) : cnode := match x with CIno h _ => CIno h c | _ => x end.
(** signature() of the entry: 'x' for a cat_detruit, 'i' for a cat_ignored *)
Definition sig_of (x : cnode) : fkind := match x with CIno h _ => c_kind h | CDet _ => KOther 120 | CIgn => KOther 105 end.

(** what becomes of the name in the directory of the resulting catalogue *)
Inductive put := PSame | PSet (e : cnode) | PMove (e : cnode) | PDel.
(** PMove: an entry removed, if it was there, and one added, which comes last *)
Definition apply_put (n : name) (p : put) (l : list (name * cnode)) : list (name * cnode) :=
  match p with PSame => l | PSet e => aset n e l | PMove e => adel n l ++ [(n, e)] | PDel => adel n l end.

Section Merge.
(** policy: entry in place, entry to add *)
Variable pol : cnode -> cnode -> res (adata * aea).
(** filters: path of the entry, and whether it is a directory *)
Variable cov : rpath -> bool -> bool.
(** decremental mode, and the second archive is being read (index >= 1) *)
Variable decr : bool.

(** one entry of the archive being read, filtre.cpp:1985-2636: [old] is the entry of that name in the resulting catalogue, [under] the
    merging of what is below the entry with what is below that name in the resulting catalogue *)
Definition merge_entry (under : list (name * cnode) -> res (list (name * cnode))) (rp : rpath) (n : name) (x : cnode) (old : option cnode) : res put :=
  if cov (n :: rp) (dir_of x) then
    match old with
    | None =>
      if decr then Ok (PMove (CDet (sig_of x)))
      else let* c := if dir_of x then under [] else Ok [] in Ok (PMove (with_below x c))
    | Some y =>
      let* '(da, ea) := pol y x in
      match da with
      | D_preserve | D_preserve_mark | D_undefined =>
        let* y1 := kept_entry da ea y x in
        if dir_of y && dir_of x then let* c := under (below_of y) in Ok (PSet (with_below y1 c)) else Ok (PSet y1)
      | D_overwrite | D_overwrite_mark =>
        let* x1 := new_entry da ea y x in
        if dir_of y && dir_of x then let* c := under (below_of y) in Ok (PSet (with_below x1 c))
        else let* c := if dir_of x then under [] else Ok [] in Ok (PMove (with_below x1 c))
      | D_remove => Ok PDel
      | D_ask => Err Ebug
      end
    end
  else Ok PSame.

(** the entries of a directory of the archive being read, in order, over the entries [cur] of the resulting catalogue *)
Fixpoint merge_node (rp : rpath) (x : cnode) (cur : list (name * cnode)) : res (list (name * cnode)) :=
  match x with
  | CIno _ ch =>
    (fix go (l : list (name * cnode)) (cur : list (name * cnode)) : res (list (name * cnode)) := match l with
      | [] => Ok cur
      | (n, x) :: r => let* p := merge_entry (merge_node (n :: rp) x) rp n x (aget n cur) in go r (apply_put n p cur)
      end) ch cur
  | _ => Ok cur
  end.
Definition merge_list (rp : rpath) :=
  fix go (l : list (name * cnode)) (cur : list (name * cnode)) : res (list (name * cnode)) := match l with
      | [] => Ok cur
      | (n, x) :: r => let* p := merge_entry (merge_node (n :: rp) x) rp n x (aget n cur) in go r (apply_put n p cur)
      end.
End Merge.

(** filtre_merge: the first archive over an empty catalogue, then the second; the name of the policy is "decr_policy" in decremental mode *)
Definition merge (pol : cnode -> cnode -> res (adata * aea)) (cov : rpath -> bool -> bool) (decr : bool) (first second : list (name * cnode)) : res (list (name * cnode)) :=
  let* c := merge_list pol cov false [] first [] in merge_list pol cov decr [] second c.
(** dar -+ ... -ad: filtre.cpp:1898 *)
Definition merge_decremental (cap : time_unit) (cov : rpath -> bool -> bool) (older newer : list (name * cnode)) : res (list (name * cnode)) :=
  merge (policy_of cap decr_policy) cov true older newer.
