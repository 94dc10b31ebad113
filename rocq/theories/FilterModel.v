(** * FilterModel: the filters dar makes of its command line

    Models src/dar_suite/command_line.cpp: how the options -X -I -P -g -] -[ -u -U -Z -Y -> -<
    -{ -} -am -an -acase -ag -ar are recorded (get_args_recursive) and the masks made of them
    (get_args, make_include_exclude_name, make_exclude_path_ordered, make_exclude_path_unordered,
    make_include_path, make_ordered_mask, make_unordered_mask), and
    tools_build_regex_for_exclude_mask of src/libdar/tools.cpp.

    fnmatch, regcomp and the reading of a listing file are parameters; the default end of line
    sequences are used for listing files.  Memory is never exhausted. *)
From Coq Require Import List.
From Verif Require Import Base PathModel MaskModel.
Local Open Scope nat_scope.

(** struct pre_mask, command_line.cpp:90-97 *)
Record pre_mask := { included : bool; text : str; case_sensit : bool; file_listing : bool; glob_exp : bool }.

(** What the C library and the filesystem give. [fnm g s]: fnmatch(g, s, FNM_PERIOD) == 0.
    [rgx cs e]: regcomp, None when it refuses [e]; the function tells what regexec matches.
    [lst file cs prefix inc]: the mask_list made of a listing file (ListingModel). [up]: upper case. *)
Record library := {
  up : N -> N;
  fnm : str -> str -> bool;
  rgx : bool -> str -> option (str -> bool);
  lst : str -> bool -> path -> bool -> res (str -> res bool)
}.

(** ** Recording the options, command_line.cpp:1223-1265, 1291-1302, 1454-1473, 1616-1642, 2015-2034, 2157-2176 *)
Inductive kind := KName | KPath | KEa | KCompr | KHook | KDelta.
Inductive arg :=
| Select (k : kind) (incl : bool) (s : str)   (* -X -I, -P -g, -u -U, -Z -Y, -> -<, -} -{ *)
| FromFile (incl : bool) (s : str)            (* -] -[ *)
| Case (b : bool)                             (* -acase, -an *)
| Glob (b : bool)                             (* -ag, -ar *)
| Ordered.                                    (* -am *)

Record rec := { names : list pre_mask; paths : list pre_mask; eas : list pre_mask; comprs : list pre_mask; hooks : list pre_mask; deltas : list pre_mask;
  cur_case : bool; cur_glob : bool; ordered_filters : bool }.

(** the defaults, command_line.cpp:160-183 *)
Definition rec0 : rec := {| names := []; paths := []; eas := []; comprs := []; hooks := []; deltas := []; cur_case := true; cur_glob := true; ordered_filters := false |}.

Definition push (r : rec) (k : kind) (m : pre_mask) : rec :=
  let add (k' : kind) (l : list pre_mask) := match k, k' with
    | KName, KName | KPath, KPath | KEa, KEa | KCompr, KCompr | KHook, KHook | KDelta, KDelta => l ++ [m]
    | _, _ => l end in
  {| names := add KName (names r); paths := add KPath (paths r); eas := add KEa (eas r); comprs := add KCompr (comprs r);
     hooks := add KHook (hooks r); deltas := add KDelta (deltas r);
     cur_case := cur_case r; cur_glob := cur_glob r; ordered_filters := ordered_filters r |}.

Definition read_arg (r : rec) (a : arg) : rec :=
  match a with
  | Select k i s => push r k {| included := i; text := s; case_sensit := cur_case r; file_listing := false; glob_exp := cur_glob r |}
  | FromFile i s => push r KPath {| included := i; text := s; case_sensit := cur_case r; file_listing := true; glob_exp := cur_glob r |}
  | Case b => {| names := names r; paths := paths r; eas := eas r; comprs := comprs r; hooks := hooks r; deltas := deltas r;
                 cur_case := b; cur_glob := cur_glob r; ordered_filters := ordered_filters r |}
  | Glob b => {| names := names r; paths := paths r; eas := eas r; comprs := comprs r; hooks := hooks r; deltas := deltas r;
                 cur_case := cur_case r; cur_glob := b; ordered_filters := ordered_filters r |}
  | Ordered => {| names := names r; paths := paths r; eas := eas r; comprs := comprs r; hooks := hooks r; deltas := deltas r;
                 cur_case := cur_case r; cur_glob := cur_glob r; ordered_filters := true |}
  end.
Definition read_args (l : list arg) : rec := fold_left read_arg l rec0.

Section build.
Variable L : library.

(** simple_mask, mask.cpp:42-63 *)
Definition simple_mask (g : str) (cs : bool) : mask :=
  if cs then MLeaf (fnm L g) else MLeaf (fun s => fnm L (map (up L) g) (map (up L) s)).
(** regular_mask, mask.cpp:76-81, 101-104, 116-131 *)
Definition regular_mask (e : str) (cs : bool) : res mask :=
  match rgx L cs e with Some f => Ok (MLeaf f) | None => Err Erange end.
(** mask_list, mask_list.cpp:57-326 *)
Definition mask_list (file : str) (cs : bool) (prefix : path) (inc : bool) : res mask :=
  let* f := lst L file cs prefix inc in Ok (MFile f).
(** simple_path_mask, mask.hpp:405-425 *)
Definition simple_path_mask (p : path) (cs : bool) : mask := if cs then MSimplePath p else MSimplePathNC (up L) p.

(** prefix + x, path.hpp:132, the string being converted to a path first *)
Definition plus (prefix : path) (x : str) : res path := let* a := path_make x false in path_add prefix a.

(** tools_build_regex_for_exclude_mask, tools.cpp:2417-2459 *)
Definition escaped (c : N) : bool := existsb (N.eqb c) [46; 63; 43; 42; 94; 36; 91; 124; 123; 40; 41; 92]%N. (* . ? + * ^ $ [ | { ( ) backslash *)
Fixpoint escape (s : str) : str := match s with [] => [] | c :: r => (if escaped c then [92%N; c] else [c]) ++ escape r end.
Fixpoint to_dollar (s : str) : str := match s with [] => [] | c :: r => if N.eqb c 36 then [] else c :: to_dollar r end.
Definition build_regex (prefix relative_part : str) : str :=
  let r1 := 94%N :: escape prefix in                                        (* ^ *)
  let r2 := if N.eqb (last r1 0%N) SLASH then r1 else r1 ++ [SLASH] in
  let r3 := match relative_part with
            | c :: r => if N.eqb c 94 then r2 ++ to_dollar r else r2 ++ [46; 42]%N ++ to_dollar relative_part
            | [] => r2 ++ [46; 42]%N end in                                 (* .* *)
  r3 ++ [40; 47; 46; 43; 41; 63; 36]%N.                                     (* (/.+)?$ *)

(** make_include_exclude_name, :3169-3182 *)
Definition make_name (prefix : path) (o : pre_mask) : res mask :=
  if glob_exp o then Ok (simple_mask (text o) (case_sensit o)) else regular_mask (text o) (case_sensit o).
(** make_exclude_path_ordered, :3184-3222 *)
Definition make_exclude_path_ordered (prefix : path) (o : pre_mask) : res mask :=
  if file_listing o then mask_list (text o) (case_sensit o) prefix false
  else if glob_exp o then
    let* p := plus prefix (text o) in
    Ok (MOr [simple_mask (display p) (case_sensit o); simple_mask (display p ++ [47; 42]%N) (case_sensit o)])
  else regular_mask (build_regex (display prefix) (text o)) (case_sensit o).
(** make_exclude_path_unordered, :3224-3245 *)
Definition make_exclude_path_unordered (prefix : path) (o : pre_mask) : res mask :=
  if file_listing o then mask_list (text o) (case_sensit o) prefix false
  else if glob_exp o then let* p := plus prefix (text o) in Ok (simple_mask (display p) (case_sensit o))
  else regular_mask (build_regex (display prefix) (text o)) (case_sensit o).
(** make_include_path, :3247-3265 *)
Definition make_include_path (prefix : path) (o : pre_mask) : res mask :=
  if file_listing o then mask_list (text o) (case_sensit o) prefix true
  else let* p := plus prefix (text o) in Ok (simple_path_mask p (case_sensit o)).

(** make_ordered_mask, :3267-3381. [top]: which of tmp_ou_mask and tmp_et_mask points to the mask made so far. *)
Inductive top := TNone | TOu (l : list mask) | TEt (l : list mask).
Record building := { ret_mask : option mask; tmp_mask : top }.
Definition add_include (b : building) (m : mask) : building :=
  match ret_mask b, tmp_mask b with
  | None, t => {| ret_mask := Some m; tmp_mask := t |}
  | Some _, TOu l => {| ret_mask := Some (MOr (l ++ [m])); tmp_mask := TOu (l ++ [m]) |}
  | Some r, _ => {| ret_mask := Some (MOr [r; m]); tmp_mask := TOu [r; m] |}
  end.
Definition add_exclude (b : building) (m : mask) : building :=
  match ret_mask b, tmp_mask b with
  | None, t => {| ret_mask := Some (MNot m); tmp_mask := t |}
  | Some _, TEt l => {| ret_mask := Some (MAnd (l ++ [MNot m])); tmp_mask := TEt (l ++ [MNot m]) |}
  | Some r, _ => {| ret_mask := Some (MAnd [r; MNot m]); tmp_mask := TEt [r; MNot m] |}
  end.
Fixpoint ordered_loop (mki mke : pre_mask -> res mask) (l : list pre_mask) (b : building) : res building :=
  match l with
  | [] => Ok b
  | o :: r =>
    if included o then let* m := mki o in ordered_loop mki mke r (add_include b m)
    else let* m := mke o in ordered_loop mki mke r (add_exclude b m)
  end.
Definition make_ordered_mask (l : list pre_mask) (mki mke : path -> pre_mask -> res mask) (prefix : path) : res mask :=
  let* b := ordered_loop (mki prefix) (mke prefix) l {| ret_mask := None; tmp_mask := TNone |} in
  Ok match ret_mask b with None => MBool true | Some m => m end.

(** make_unordered_mask, :3383-3433 *)
Fixpoint unordered_loop (mki mke : pre_mask -> res mask) (l : list pre_mask) (inc exc : list mask) : res (list mask * list mask) :=
  match l with
  | [] => Ok (inc, exc)
  | o :: r =>
    if included o then let* m := mki o in unordered_loop mki mke r (inc ++ [m]) exc
    else let* m := mke o in unordered_loop mki mke r inc (exc ++ [m])
  end.
Definition make_unordered_mask (l : list pre_mask) (mki mke : path -> pre_mask -> res mask) (prefix : path) : res mask :=
  let* '(inc, exc) := unordered_loop (mki prefix) (mke prefix) l [] [] in
  let first := match inc with [] => MBool true | _ => MOr inc end in
  Ok (MAnd (first :: match exc with [] => [] | _ => [MNot (MOr exc)] end)).

(** ** The masks of get_args, :670-800 *)
Definition name_mask (r : rec) (l : list pre_mask) (root : path) : res mask :=
  if ordered_filters r then make_ordered_mask l make_name make_name root else make_unordered_mask l make_name make_name root.
(** :670-679 *)
Definition selection (r : rec) (root : path) : res mask := name_mask r (names r) root.
(** :687-697: [root] is fs_root, or PSEUDO_ROOT when testing, merging and listing *)
Definition subtree (r : rec) (root : path) : res mask :=
  if ordered_filters r then make_ordered_mask (paths r) make_include_path make_exclude_path_ordered root
  else make_unordered_mask (paths r) make_include_path make_exclude_path_unordered root.
(** :710-727, with a compression algorithm *)
Definition compress_mask (r : rec) (root : path) : res mask := name_mask r (comprs r) root.
(** :734-743 *)
Definition ea_mask (r : rec) (root : path) : res mask := name_mask r (eas r) root.
(** :751-781, when creating and at least one option is given *)
Definition hook_mask (r : rec) (root : path) : res mask :=
  if ordered_filters r then make_ordered_mask (hooks r) make_exclude_path_unordered make_exclude_path_unordered root
  else make_unordered_mask (hooks r) make_exclude_path_unordered make_exclude_path_unordered root.
(** :788-800, when at least one option is given *)
Definition delta_mask (r : rec) (root : path) : res mask :=
  if ordered_filters r then make_ordered_mask (deltas r) make_exclude_path_unordered make_exclude_path_unordered root
  else make_unordered_mask (deltas r) make_exclude_path_unordered make_exclude_path_unordered root.
End build.

(** ** Using them: filtre_sauvegarde and the other operations, filtre.cpp:680-681, 1284, 276-277:
    an entry is looked at when its directory is, and its path is covered; for what is not a
    directory its name has to be covered too.  [q]: its path from the root of the operation, as
    names; the root itself is not tested. *)
Fixpoint walked (sub : mask) (at_ : list str) (q : list str) : res bool :=
  match q with
  | [] => Ok true
  | n :: r =>
    let* b := is_covered sub (SPath (Path (at_ ++ [n]) false false)) in
    if b then walked sub (at_ ++ [n]) r else Ok false
  end.
Definition taken (sub sel : mask) (root : list str) (q : list str) (is_dir : bool) : res bool :=
  let* b := walked sub root q in
  if b then (if is_dir then Ok true else is_covered sel (SStr (last q []))) else Ok false.
