(** * Model of the masks (src/libdar/mask.hpp, mask.cpp).

    A mask is a tree; clone() and the copies are the identity. simple_mask and regular_mask are leaves whose answer is given by
    the C library (fnmatch, regexec): an arbitrary function of the string; mask_list is another leaf, modelled in ListingModel. *)
From Verif Require Import Base PathModel.
Open Scope N_scope.

Inductive mask :=
  | MBool (b : bool)               (* bool_mask, mask.hpp:100-127 *)
  | MLeaf (f : str -> bool)        (* simple_mask / regular_mask *)
  | MNot (m : mask)                (* not_mask *)
  | MAnd (l : list mask)           (* et_mask *)
  | MOr (l : list mask)            (* ou_mask *)
  | MSimplePath (p : path)         (* simple_path_mask *)
  | MSimplePathNC (up : N -> N) (p : path) (* simple_path_mask, case insensitive; [up]: upper case of a character *)
  | MSamePath (s : str)            (* same_path_mask *)
  | MFile (f : str -> res bool)    (* mask_list *)
  | MExcludeDir (s : str).         (* exclude_dir_mask *)

(** what is_covered() is applied to: a string or a path *)
Inductive subject := SStr (s : str) | SPath (p : path).
(** mask::is_covered(path) defaults to is_covered(display()), mask.hpp:84 *)
Definition as_string (x : subject) : str := match x with SStr s => s | SPath p => display p end.

Fixpoint is_covered (m : mask) (x : subject) : res bool :=
  match m with
  | MBool b => Ok b                                                   (* mask.hpp:116-117 *)
  | MLeaf f => Ok (f (as_string x))                                   (* mask.cpp:52-63, 101-104 *)
  | MNot m' => let* b := is_covered m' x in Ok (negb b)               (* mask.hpp:252-253 *)
  | MAnd l =>                                                         (* mask.hpp:340-351 *)
    match l with
    | [] => Err Erange
    | _ => (fix all (l : list mask) : res bool :=
             match l with [] => Ok true | m' :: r => let* b := is_covered m' x in if b then all r else Ok false end) l
    end
  | MOr l =>                                                          (* mask.hpp:380-391 *)
    match l with
    | [] => Err Erange
    | _ => (fix any (l : list mask) : res bool :=
             match l with [] => Ok false | m' :: r => let* b := is_covered m' x in if b then Ok true else any r end) l
    end
  | MSimplePath p =>                                                  (* mask.hpp:414, mask.cpp:269-272 *)
    match x with SStr _ => Err Ebug | SPath q => Ok (is_subdir_of q p || is_subdir_of p q) end
  | MSimplePathNC up p =>                                             (* mask.hpp:414, mask.cpp:269-272 *)
    match x with SStr _ => Err Ebug | SPath q => Ok (is_subdir_nocase up q p || is_subdir_nocase up p q) end
  | MFile f => f (as_string x)                                        (* mask_list.cpp:328-363 *)
  | MSamePath s => Ok (str_eqb (as_string x) s)                       (* mask.cpp:285-291 *)
  | MExcludeDir s =>                                                  (* mask.hpp:475-476: the parameter hides the field *)
    match x with SStr _ => Err Ebug | SPath chemin => Ok (is_subdir_of chemin chemin) end
  end.
