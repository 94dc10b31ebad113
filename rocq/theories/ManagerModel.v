(** * Model of restoring from a dar_manager database (C48): dar_manager -r (i_database.cpp:637-861) and dar -x -af over a database (i_database.cpp:863-975, restore_tree.cpp, mask_database.cpp).

    Paths are lists of names, relative to the root of the database. What dar then does with one archive is left to [run], parametrised by what the archives contain (the extraction itself is C40): the entries that the
    filter lets the traversal reach are extracted, each for itself. Left out: reading the archives, the answers given to the user, the conversions between strings and paths (C17), the root given to dar. Names of
    the children of a directory are different. *)
From Coq Require Import List Bool PeanoNat.
From Verif Require Import Base DatetimeModel DbModel.
Import ListNotations.
Open Scope N_scope.

Definition path := list (list N).
(** std::set<archive_num>, by increasing number *)
Fixpoint sinsert (k : N) (s : list N) : list N :=
  match s with
  | [] => [k]
  | x :: r => if k <? x then k :: s else if k =? x then s else x :: sinsert k r
  end.
Definition sunion (a b : list N) : list N := fold_left (fun s k => sinsert k s) b a.
Definition to_set (l : list N) : list N := sunion [] l.
Definition mem (k : N) (s : list N) : bool := existsb (N.eqb k) s.

(** ** what one run of dar does *)
(** filtre_restore, filtre.cpp: an entry is met when it and the directories above pass the filter on paths *)
Fixpoint met (cov : path -> bool) (above p : path) : bool :=
  match p with [] => true | n :: r => cov (above ++ [n]) && met cov (above ++ [n]) r end.
Definition run {S} (act : tree -> path -> S -> N -> S) (t : tree) (cov : path -> bool) (k : N) (disk : path -> S) : path -> S :=
  fun p => if met cov [] p then match tree_find p t with Some e => act e p (disk p) k | None => disk p end else disk p.

(** ** restore_tree *)
Inductive rtree := Rt (locations : list N) (children : list (list N * rtree)).
(** the constructor, restore_tree.cpp:36-84 *)
Fixpoint rt_build (d : datetime) (t : tree) : res rtree :=
  let 'Tree _ m c k := t in
  let* '(set, data_ret) := get_data m d false in
  let* '(ea_num, ea_ret) := get_EA c d false in
  let loc :=
    match data_ret with
    | found_present => match ea_ret with found_present | found_removed => sinsert ea_num (to_set set) | _ => to_set set end
    | _ => []
    end in
  let* kids := match k with None => Ok [] | Some l => mapM (fun t => let* r := rt_build d t in Ok (t_name t, r)) l end in
  Ok (Rt loc kids).
(** get_locations, restore_tree.cpp:86-125: the archives of the children are added to the ones of the directory *)
Fixpoint rt_locations (cov : path -> bool) (here : path) (r : rtree) : rtree * list N :=
  let 'Rt loc kids := r in
  let sub := map (fun x => let p := here ++ [fst x] in if cov p then let '(k, s) := rt_locations cov p (snd x) in (fst x, k, s) else (fst x, snd x, [])) kids in
  let all := fold_left (fun s x => sunion s (snd x)) sub loc in
  (Rt all (map fst sub), all).
(** lookup, restore_from, restore_tree.cpp:127-163 *)
Fixpoint rt_find (p : path) (r : rtree) : option rtree :=
  match p with
  | [] => Some r
  | n :: q => let 'Rt _ kids := r in match find (fun x => name_eqb n (fst x)) kids with Some x => rt_find q (snd x) | None => None end
  end.
Definition restore_from (r : rtree) (p : path) (num : N) : res bool :=
  match rt_find p r with Some (Rt loc _) => Ok (mem num loc) | None => Err Ebug end.
(** mask_database::is_covered, mask_database.cpp:66-129 *)
Definition db_covered (cov : path -> bool) (r : rtree) (zoom : N) (p : path) : bool := cov p && match restore_from r p zoom with Ok b => b | Err _ => false end.
(** restore, i_database.cpp:863-975: the archives, in order, each with the filter focused on it *)
Definition restore_db {S} (act : tree -> path -> S -> N -> S) (t : tree) (cov : path -> bool) (d : datetime) (disk : path -> S) : res (path -> S) :=
  let* r := rt_build d t in
  let '(r, ks) := rt_locations cov [] r in
  Ok (fold_left (fun disk k => run act t (db_covered cov r k) k disk) ks disk).

(** ** dar_manager -r *)
(** what is asked from archives for one entry, i_database.cpp:663-741: num_ea is always 0 (:697, found_present) *)
Definition entry_plan (e : tree) (d : datetime) (ewr : bool) : res (list N) :=
  let* '(num_data, look_data) := get_data (t_mods e) d ewr in
  let* '(num_ea, look_ea) := get_EA (t_chg e) d ewr in
  let num_data := match look_data with found_present => to_set num_data | _ => [] end in
  let num_ea := match look_ea with found_present | found_removed | not_found | not_restorable => 0 end in
  if (num_ea =? 0) && is_nil num_data then Ok []
  else Ok ((if negb (num_ea =? 0) && mem num_ea num_data then [num_ea] else []) ++ num_data).
Definition child_paths (p : path) (e : tree) : list path := match t_kids e with None => [] | Some l => map (fun c => p ++ [t_name c]) l end.
(** the loop on anneau, :657-763: gives the pairs (archive, path) in the order they are added to command_line *)
Fixpoint queue (fuel : nat) (t : tree) (d : datetime) (ewr : bool) (anneau : list path) : res (list (N * path)) :=
  match anneau with
  | [] => Ok []
  | p :: rest =>
    match fuel with
    | O => Err Fuel
    | S n =>
      match tree_find p t with
      | None => queue n t d ewr rest
      | Some e =>
        let* ks := entry_plan e d ewr in
        let* l := queue n t d ewr (rest ++ child_paths p e) in
        Ok (map (fun k => (k, p)) ks ++ l)
      end
    end
  end.
(** the -g options of an archive, and the filter dar makes of them: simple_path_mask::is_covered, mask.cpp:269-272 *)
Definition options_of (k : N) (l : list (N * path)) : list path := map snd (filter (fun x => fst x =? k) l).
Fixpoint is_prefix (a b : path) : bool := match a, b with [], _ => true | x :: a, y :: b => name_eqb x y && is_prefix a b | _, [] => false end.
Definition goes_into (gs : list path) (p : path) : bool := existsb (fun g => is_prefix g p || is_prefix p g) gs.
(** restore, :637-861: dar is called for each archive of the map command_line, by increasing number *)
Definition manager_restore {S} (fuel : nat) (act : tree -> path -> S -> N -> S) (t : tree) (names : list path) (d : datetime) (ewr : bool) (disk : path -> S) : res (path -> S) :=
  let* l := queue fuel t d ewr names in
  Ok (fold_left (fun disk k => run act t (goes_into (options_of k l)) k disk) (to_set (map fst l)) disk).
