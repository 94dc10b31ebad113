(** * FilterSpec: what the selection options mean, after the manual *)
From Coq Require Import List.
From Verif Require Import Base PathModel PropPath FilterModel.
Local Open Scope nat_scope.

(** the string of an absolute path given by its names *)
Definition string_of (q : list str) : str := SLASH :: join q.

Section spec.
Variable L : library.

(** a glob expression, up to the case of letters when the option says so *)
Definition glob_matches (o : pre_mask) (g s : str) : Prop :=
  if case_sensit o then fnm L g s = true else fnm L (map (up L) g) (map (up L) s) = true.
(** one path leads to another *)
Definition leads_to (o : pre_mask) (p q : list str) : Prop :=
  exists r, if case_sensit o then q = p ++ r else map (map (up L)) q = map (map (up L)) p ++ r.

(** ** -X -I -u -U -Y -Z: compared to a name *)
Definition name_matches (o : pre_mask) (s : str) : Prop :=
  if glob_exp o then glob_matches o (text o) s
  else exists f, rgx L (case_sensit o) (text o) = Some f /\ f s = true.

(** ** -P -g -] -[: compared to a path; the text is relative to the root *)
Definition target (root : list str) (o : pre_mask) : list str := root ++ filter (fun w => negb (str_eqb w dot)) (words (text o)).
Definition listed (root : list str) (inc : bool) (o : pre_mask) (q : list str) : Prop :=
  exists f, lst L (text o) (case_sensit o) (Path root false false) inc = Ok f /\ f (string_of q) = Ok true.
(** -g takes what leads to the path and what is below *)
Definition includes (root : list str) (o : pre_mask) (q : list str) : Prop :=
  if file_listing o then listed root true o q
  else leads_to o q (target root o) \/ leads_to o (target root o) q.
(** -P excludes what it matches, and in ordered mode what is below *)
Definition excludes (ordered : bool) (root : list str) (o : pre_mask) (q : list str) : Prop :=
  if file_listing o then listed root false o q
  else if glob_exp o then
    glob_matches o (string_of (target root o)) (string_of q) \/
    (ordered = true /\ exists u v, string_of q = u ++ SLASH :: v /\ glob_matches o (string_of (target root o)) u)
  else exists f, rgx L (case_sensit o) (build_regex (string_of root) (text o)) = Some f /\ f (string_of q) = true.
End spec.

(** ** The normal method: not excluded, and included if there is something to include *)
Definition by_normal_method (inc exc : pre_mask -> Prop) (l : list pre_mask) : Prop :=
  ((forall o, In o l -> included o = false) \/ (exists o, In o l /\ included o = true /\ inc o)) /\
  (forall o, In o l -> included o = false -> ~ exc o).
(** ** The ordered method: the last option that matches decides; when none does, taken when the first excludes *)
Definition by_ordered_method (inc exc : pre_mask -> Prop) (l : list pre_mask) : Prop :=
  (exists l1 o l2, l = l1 ++ o :: l2 /\ included o = true /\ inc o /\ forall o', In o' l2 -> included o' = false -> ~ exc o') \/
  ((forall o, In o l -> included o = false -> ~ exc o) /\ (l = [] \/ exists o l', l = o :: l' /\ included o = false)).

(** ** What is expected of the options and of the library *)
Definition good_up (L : library) : Prop := (forall c, up L c = SLASH <-> c = SLASH) /\ up L 42%N = 42%N.
Definition proper (w : str) : Prop := plain_name w /\ noslash w.
(** a relative path without ".." *)
Definition good_text (s : str) : Prop := s <> [] /\ hd 0%N s <> SLASH /\ ~ url_like s /\ Forall (fun w => w <> dotdot) (words s).
(** for fnmatch, "expression/*" matches what follows a match *)
Definition glob_law (L : library) (g : str) : Prop :=
  forall s, fnm L (g ++ [47; 42]%N) s = true <-> exists u v, s = u ++ SLASH :: v /\ fnm L g u = true.
Definition good_name (L : library) (o : pre_mask) : Prop := glob_exp o = false -> rgx L (case_sensit o) (text o) <> None.
(** a listing answers for every path; an including one takes what leads to what it takes (C35) *)
Definition good_listing (L : library) (root : list str) (o : pre_mask) : Prop :=
  exists f, lst L (text o) (case_sensit o) (Path root false false) (included o) = Ok f /\
    (forall q, Forall proper q -> exists b, f (string_of q) = Ok b) /\
    (included o = true -> forall p r, Forall proper (p ++ r) -> f (string_of (p ++ r)) = Ok true -> f (string_of p) = Ok true).
Definition good_path (L : library) (ordered : bool) (root : list str) (o : pre_mask) : Prop :=
  if file_listing o then good_listing L root o
  else if included o then good_text (text o)
  else if glob_exp o then good_text (text o) /\
    (ordered = true -> glob_law L (if case_sensit o then string_of (target root o) else map (up L) (string_of (target root o))))
  else exists f, rgx L (case_sensit o) (build_regex (string_of root) (text o)) = Some f /\
    (ordered = true -> forall s v, v <> [] -> f s = true -> f (s ++ SLASH :: v) = true).
