(** * Model of what a backup takes from the filesystem (C49, C50)

    Sources: src/libdar/filesystem_backup.cpp (read, skip_read_to_parent_dir, reset_read), src/libdar/etage.cpp, src/libdar/filtre.cpp (filtre_sauvegarde 545-1200), src/libdar/defile.cpp, src/libdar/catalogue.cpp (add 439-468,
    compare 519-626, update_destroyed_with 628-721), src/libdar/cat_directory.cpp (add_children 337-396, inherited_dump 248-282), src/libdar/cat_ignored_dir.cpp, src/libdar/semaphore.cpp, src/libdar/filesystem_ids.cpp.

    The filesystem does not change during the backup, but for entries that vanish between the reading of their directory and their own ([f_gone]). Left out: hard links (C41), what the archive receives for an entry (C34, C40, C43), access
    dates, cancellation, messages, errors of hooks and of writing (they end the backup). Paths are relative to the root of the backup, innermost name first; the masks get them from the root. *)
From Coq Require Import List Bool PeanoNat.
From Verif Require Import Base.
Import ListNotations.
Open Scope N_scope.

Definition name := list N.
Definition rpath := list name.
Definition same_name (a b : name) : bool := if list_eq_dec N.eq_dec a b then true else false.

(** ** the filesystem *)
(** when saving an entry fails: before its data and hook are dealt with, or after (reading its EA for example) *)
Inductive failure := No_failure | Early | Late.
(** f_id stands for all that is saved of the inode; f_kind is its type when it is not a directory, 0 for a plain file; f_unread: Erange when its inode is read; f_unknown: type unknown to libdar (Edata); f_gone: it has vanished;
    f_xea: it has the EA given to exclude_by_ea; f_tag: its first bytes are those of a cache directory tag *)
Record facts := Facts { f_id : N; f_kind : N; f_dev : N; f_nodump : bool; f_unknown : bool; f_unread : bool; f_gone : bool; f_xea : bool; f_tag : bool; f_fail : failure }.
(** the entries of a directory in the order of readdir, without "." and ".."; [opens] tells whether opendir succeeds *)
Inductive fnode := Fil (n : name) (f : facts) | Dir (n : name) (f : facts) (opens : bool) (l : list fnode).
Definition fname (x : fnode) : name := match x with Fil n _ | Dir n _ _ _ => n end.
Definition ffacts (x : fnode) : facts := match x with Fil _ f | Dir _ f _ _ => f end.
Definition is_dir (x : fnode) : bool := match x with Dir _ _ _ _ => true | Fil _ _ => false end.

(** ** the archive of reference, and the catalogue being made: [against] is the entry of the reference it was compared to *)
Inductive rnode := RFil (n : name) (kind id : N) | RDir (n : name) (id : N) (l : list rnode) | RDet (n : name).
Definition rname (r : rnode) : name := match r with RFil n _ _ | RDir n _ _ | RDet n => n end.
Inductive cent :=
| CFil (n : name) (id : N) (against : option N)
| CDir (n : name) (id : N) (against : option N) (l : list cent)
| CDet (n : name) (* cat_detruit *)
| CIgn (n : name) (* cat_ignored *)
| CIgd (n : name) (id : N). (* cat_ignored_dir *)
Definition cname (c : cent) : name := match c with CFil n _ _ | CDir n _ _ _ | CDet n | CIgn n | CIgd n _ => n end.

(** ** options of the backup *)
(** [changed id f]: data are to be saved (filtre.cpp:785-800); [by_date]: fixed_date is not zero *)
Record cfg := Cfg { nodump_check : bool; cache_tagging : bool; subtree : list name -> bool; filt : name -> bool; root_dev : N; included : list N; excluded : list N; use_xea : bool; empty_dir : bool; by_date : bool;
  changed : N -> option N -> bool; hook : list name -> bool }.
(** filesystem_ids::is_covered, filesystem_ids.cpp:105-141 *)
Definition has (k : N) (l : list N) : bool := existsb (N.eqb k) l.
Definition same_fs (c : cfg) (dev : N) : bool :=
  if dev =? root_dev c then true
  else match included c, excluded c with
  | [], [] => true
  | [], ex => negb (has dev ex)
  | inc, [] => has dev inc
  | inc, ex => if has dev inc then negb (has dev ex) else false
  end.
(** the test of filtre.cpp:677-680 *)
Definition covered (c : cfg) (p : rpath) (x : fnode) : bool :=
  subtree c (rev p) && (is_dir x || filt c (fname x)) && same_fs c (f_dev (ffacts x)) && negb (use_xea c && f_xea (ffacts x)).

(** ** etage *)
(** "CACHEDIR.TAG" *)
Definition TAG : name := [67;65;67;72;69;68;73;82;46;84;65;71].
(** cache_directory_tagging_check, etage.cpp:203-259 *)
Definition is_tag (x : fnode) : bool := match x with Fil n f => same_name n TAG && f_tag f | Dir _ _ _ _ => false end.
(** the constructor, etage.cpp:98-187: the loop on readdir, stopped by a tag *)
Fixpoint readdir (tagging : bool) (l : list fnode) : list fnode * bool :=
  match l with
  | [] => ([], false)
  | x :: r => if tagging && is_tag x then ([x], true) else let '(s, b) := readdir tagging r in (x :: s, b)
  end.
Definition etage (c : cfg) (l : list fnode) : list fnode := let '(s, is_cache_dir) := readdir (cache_tagging c) l in if is_cache_dir then [] else s.
(** filesystem_backup.cpp:222-246: a directory that cannot be opened is taken as an empty one *)
Definition enter (c : cfg) (opens : bool) (l : list fnode) : list fnode := if opens then etage c l else [].

(** ** semaphore: hooks run, and the copies of data *)
Inductive ev := Hook_start (p : rpath) | Hook_end (p : rpath) | Data (p : rpath).
Record sem := Sem { count : nat; chem : rpath; log : list ev }.
(** raise, semaphore.cpp:50-95. [what]: None for cat_eod, else whether it is a directory *)
Definition raise_ (c : cfg) (p : rpath) (what : option bool) (data_to_save : bool) (s : sem) : sem :=
  if (1 <? count s)%nat then
    match what with
    | None => Sem (pred (count s)) (chem s) (log s)
    | Some true => Sem (S (count s)) (chem s) (log s)
    | Some false => s
    end
  else match what with
  | None => s
  | Some d => if data_to_save && hook c (rev p) then Sem (if d then 2%nat else 1%nat) p (log s ++ [Hook_start p]) else s
  end.
Definition raise (c : cfg) (p : rpath) (what : option bool) (data_to_save : bool) (s : sem) : res sem :=
  if (count s =? 1)%nat then Err Ebug else Ok (raise_ c p what data_to_save s).
(** lower, semaphore.cpp:97-104 *)
Definition lower (s : sem) : sem := if (count s =? 1)%nat then Sem 0 (chem s) (log s ++ [Hook_end (chem s)]) else s.
Definition copied (p : rpath) (s : sem) : sem := Sem (count s) (chem s) (log s ++ [Data p]).

(** ** the catalogues *)
(** catalogue::compare, catalogue.cpp:519-626; [cmp] is current_compare with the directories above, [out] is out_compare without its root *)
Fixpoint rsearch (n : name) (l : list rnode) : option rnode := match l with [] => None | r :: q => if same_name n (rname r) then Some r else rsearch n q end.
Definition same_as (x : fnode) (r : rnode) : option N :=
  match x, r with
  | Dir _ _ _ _, RDir _ id _ => Some id
  | Fil _ f, RFil _ k id => if f_kind f =? k then Some id else None
  | _, _ => None
  end.
Definition compare (x : fnode) (cmp : list (list rnode)) (out : list name) : res (option N * list (list rnode) * list name) :=
  match out with
  | _ :: _ => Ok (None, cmp, if is_dir x then fname x :: out else out)
  | [] =>
    match cmp with
    | [] => Err Ebug
    | cur :: _ =>
      match rsearch (fname x) cur with
      | Some r =>
        if is_dir x then match r with RDir _ _ l => Ok (same_as x r, l :: cmp, []) | _ => Ok (same_as x r, cmp, [fname x]) end
        else Ok (same_as x r, cmp, [])
      | None => Ok (None, cmp, if is_dir x then [fname x] else [])
      end
    end
  end.
Definition compare_eod (cmp : list (list rnode)) (out : list name) : res (list (list rnode) * list name) :=
  match out with
  | _ :: o => Ok (cmp, o)
  | [] => match cmp with _ :: (_ :: _) as r => Ok (tl cmp, []) | _ => Err Erange end
  end.
(** add_children, cat_directory.cpp:337-396: an entry of the same name is replaced; for two directories, [a_dir = d] (350) makes the new one its own child for ever *)
Fixpoint csearch (n : name) (l : list cent) : option cent := match l with [] => None | c :: q => if same_name n (cname c) then Some c else csearch n q end.
Fixpoint cremove (n : name) (l : list cent) : list cent := match l with [] => [] | c :: q => if same_name n (cname c) then q else c :: cremove n q end.
Definition is_cdir (c : cent) : bool := match c with CDir _ _ _ _ => true | _ => false end.
Definition add_children (c : cent) (l : list cent) : res (list cent) :=
  match csearch (cname c) l with
  | Some old => if is_cdir old && is_cdir c then Err UB else Ok (cremove (cname c) l ++ [c])
  | None => Ok (l ++ [c])
  end.
(** the directories from current_add up to the root; a directory gets its place among the children of its parent when cat_eod is added here, when it is itself added in the C++: in between nothing is added to the parent *)
Record frame := Frame { fr_n : name; fr_id : N; fr_against : option N; fr_kids : list cent }.
(** catalogue::add, catalogue.cpp:439-468 *)
Definition add_entry (c : cent) (l : list frame) : res (list frame) :=
  match l with [] => Err Ebug | f :: r => let* k := add_children c (fr_kids f) in Ok (Frame (fr_n f) (fr_id f) (fr_against f) k :: r) end.
Definition add_dir (n : name) (id : N) (a : option N) (l : list frame) : res (list frame) :=
  match l with [] => Err Ebug | f :: r => let* _ := add_children (CDir n id a []) (fr_kids f) in Ok (Frame n id a [] :: l) end.
Definition add_eod (l : list frame) : res (list frame) :=
  match l with f :: (_ :: _) as r => add_entry (CDir (fr_n f) (fr_id f) (fr_against f) (fr_kids f)) (tl l) | _ => Err Ebug end.

(** ** the loop *)
(** pending_*: errors and skipped_dump of the current call of read(); chemin, init: juillet *)
Record st := St { pile : list (list fnode); chemin : rpath; init : bool; cat : list frame; cmp : list (list rnode); out : list name; sm : sem; pending_err : N; pending_skip : N; ignored : N; errored : N }.
(** defile::enfile, defile.cpp:30-58: [what] is None for cat_eod *)
Definition enfile (what : option (name * bool)) (chemin : rpath) (init : bool) : res (rpath * bool) :=
  let* ch := if init then Ok chemin else match chemin with [] => Err Ebug | _ :: r => Ok r end in
  match what with None => Ok (ch, false) | Some (n, d) => Ok (n :: ch, d) end.
(** skip_read_to_parent_dir, filesystem_backup.cpp:342-361 *)
Definition skip_read (pile : list (list fnode)) : res (list (list fnode)) := match pile with [] => Err Ebug | _ :: r => Ok r end.

(** the reading of an entry by read(), filesystem_backup.cpp:208-320: None when the do-while loop goes on, with what is counted *)
Definition read_entry (c : cfg) (x : fnode) (err skip : N) : option (N * N) :=
  if nodump_check c && f_nodump (ffacts x) then Some (err, skip + 1)
  else if f_unknown (ffacts x) then Some (err, skip)
  else if f_unread (ffacts x) then Some (err + 1, skip)
  else if f_gone (ffacts x) then Some (err, skip)
  else None.
(** what save_inode does to the semaphore, filtre.cpp:3213-3223, 3246-3254 and 3877-3896 *)
Definition save_inode (c : cfg) (p : rpath) (x : fnode) (to_save : bool) (s : sem) : res sem :=
  if to_save then
    let* s := raise c p (Some (is_dir x)) true s in
    Ok (lower (if negb (is_dir x) && (f_kind (ffacts x) =? 0) then copied p s else s))
  else raise c p (Some (is_dir x)) false s.
(** one entry, filtre.cpp:645-1160; [r] is what remains to be read, with the contents of x first when x is a directory *)
Definition treat (c : cfg) (x : fnode) (pile' : list (list fnode)) (s : st) : res st :=
  let p := chemin s in
  let '(f, n) := (ffacts x, fname x) in
  if covered c p x then
    let* '(a, cmp1, out1) := if by_date c then Ok (None, cmp s, out s) else compare x (cmp s) (out s) in
    let failed sm' :=
      let* '(cmp2, out2) := if is_dir x && negb (by_date c) then compare_eod cmp1 out1 else Ok (cmp1, out1) in
      let* k := add_entry (CIgn n) (cat s) in
      if is_dir x then
        let* pl := skip_read pile' in
        let* '(ch, ini) := enfile None (chemin s) (init s) in
        Ok (St pl ch ini k cmp2 out2 sm' 0 0 (ignored s) (errored s + 1))
      else Ok (St pile' (chemin s) (init s) k cmp2 out2 sm' 0 0 (ignored s) (errored s + 1)) in
    match f_fail f with
    | Early => failed (sm s)
    | fl =>
      let* sm1 := save_inode c p x (changed c (f_id f) a) (sm s) in
      match fl with
      | Late => failed sm1
      | _ =>
        let* k := match x with Dir _ _ _ _ => add_dir n (f_id f) a (cat s) | Fil _ _ => add_entry (CFil n (f_id f) a) (cat s) end in
        Ok (St pile' (chemin s) (init s) k cmp1 out1 sm1 0 0 (ignored s) (errored s))
      end
    end
  else
    let* sm1 := raise c p (Some (is_dir x)) false (sm s) in
    let* k := add_entry (if is_dir x && empty_dir c then CIgd n (f_id f) else CIgn n) (cat s) in
    if is_dir x then
      let* '(cmp1, out1) := if empty_dir c && negb (by_date c) then (let* '(_, c1, o1) := compare x (cmp s) (out s) in compare_eod c1 o1) else Ok (cmp s, out s) in
      let* pl := skip_read pile' in
      let* '(ch, ini) := enfile None (chemin s) (init s) in
      Ok (St pl ch ini k cmp1 out1 sm1 0 0 (ignored s + 1) (errored s))
    else Ok (St pile' (chemin s) (init s) k (cmp s) (out s) sm1 0 0 (ignored s + 1) (errored s)).
(** one turn of the loop of read(), and of the one of filtre_sauvegarde when read() returns: inl when the backup goes on *)
Definition step (c : cfg) (s : st) : res (st + st) :=
  match pile s with
  | [] => Ok (inr s)
  | [] :: [] => Ok (inr s) (* read() returns false: what it has counted is lost *)
  | [] :: rest =>
    let* '(ch, ini) := enfile None (chemin s) (init s) in
    let* s1 := raise c ch None true (sm s) in
    let* '(cmp1, out1) := if by_date c then Ok (cmp s, out s) else compare_eod (cmp s) (out s) in
    let* k := add_eod (cat s) in
    Ok (inl (St rest ch ini k cmp1 out1 (lower s1) 0 0 (ignored s + pending_skip s) (errored s + pending_err s)))
  | (x :: r) :: rest =>
    match read_entry c x (pending_err s) (pending_skip s) with
    | Some (e, k) => Ok (inl (St (r :: rest) (chemin s) (init s) (cat s) (cmp s) (out s) (sm s) e k (ignored s) (errored s)))
    | None =>
      let* '(ch, ini) := enfile (Some (fname x, is_dir x)) (chemin s) (init s) in
      let* s' := treat c x (match x with Dir _ _ o l => enter c o l :: r :: rest | Fil _ _ => r :: rest end)
        (St [] ch ini (cat s) (cmp s) (out s) (sm s) 0 0 (ignored s + pending_skip s) (errored s + pending_err s)) in
      Ok (inl s')
    end
  end.
Fixpoint loop (fuel : nat) (c : cfg) (s : st) : res st :=
  match fuel with O => Err Fuel | S n => let* x := step c s in match x with inl s' => loop n c s' | inr s' => Ok s' end end.
(** the root of the backup must open (filesystem_backup.cpp:158-200) *)
Definition start (c : cfg) (root : list fnode) (ref : list rnode) : st :=
  St [etage c root] [] true [Frame [] 0 None []] [ref] [] (Sem 0 [] []) 0 0 0 0.

(** update_destroyed_with, catalogue.cpp:628-721: the stacks of both catalogues are those of the recursion *)
Fixpoint cupdate (c : cent) (l : list cent) : list cent := match l with [] => [] | x :: q => if same_name (cname c) (cname x) then c :: q else x :: cupdate c q end.
Fixpoint destroyed (r : rnode) (cur : list cent) : list cent :=
  match r with
  | RDet _ => cur
  | RFil n _ _ => match csearch n cur with None => cur ++ [CDet n] | Some _ => cur end
  | RDir n _ l =>
    match csearch n cur with
    | None => cur ++ [CDet n]
    | Some (CDir n' i a k) => cupdate (CDir n' i a ((fix go l cur := match l with [] => cur | r :: q => go q (destroyed r cur) end) l k)) cur
    | Some _ => cur
    end
  end.
Definition update_destroyed (ref : list rnode) (cur : list cent) : list cent := fold_left (fun cur r => destroyed r cur) ref cur.
(** what is written of the catalogue: inherited_dump, cat_directory.cpp:248-282, cat_ignored_dir.cpp:48-53 *)
Fixpoint dumped (c : cent) : list cent :=
  match c with
  | CIgn _ => []
  | CIgd n i => [CDir n i None []]
  | CDir n i a l => [CDir n i a (flat_map dumped l)]
  | _ => [c]
  end.
(** i_archive.cpp:2810-2817 *)
Definition backup (fuel : nat) (c : cfg) (ref : option (list rnode)) (root : list fnode) : res (list cent * st) :=
  let* s := loop fuel c (start c root (match ref with Some r => r | None => [] end)) in
  match cat s with
  | [f] => let k := match ref with Some r => update_destroyed r (fr_kids f) | None => fr_kids f end in Ok (flat_map dumped k, s)
  | _ => Err Ebug
  end.
