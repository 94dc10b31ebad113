(** * Specification of restorations from a database (C48). The records of one file, its states and what extracting an archive does to it are those of the specification of C21 ([world], [extract], [honest], [history], [upto]). *)
From Coq Require Import List Bool PeanoNat.
From Verif Require Import Base DatetimeModel PropDatetime DbModel DbMap PropDbDelta PropDbLookup ManagerModel.
Import ListNotations.
Open Scope N_scope.

(** the entry of a path, from the tree alone *)
Inductive entry : path -> tree -> tree -> Prop :=
| here : forall t, entry [] t t
| below : forall n p x m c l k e, In k l -> t_name k = n -> entry p k e -> entry (n :: p) (Tree x m c (Some l)) e.
(** no two children of a directory with the same name *)
Inductive one_name_each : tree -> Prop :=
| one_leaf : forall n m c, one_name_each (Tree n m c None)
| one_dir : forall n m c l, NoDup (map t_name l) -> Forall one_name_each l -> one_name_each (Tree n m c (Some l)).
(** what a database keeps (C20 to C23): records by archive number, usable patches flagged, dates in order, EA records meaningful *)
Definition records_fine (d : datetime) (m : amap statusp) (c : amap status) : Prop :=
  sorted m /\ flags_right m /\ chronological date m /\ no_revival false (upto date d m) /\ sorted c /\ ea_states c /\ chronological s_date c.

(** ** data *)
Definition data_act {C} (w : path -> world C) (e : tree) (p : path) (o : option C) (k : N) : option C := extract (w p) (t_mods e) o k.
(** ** extended attributes: what archives hold, what they really were *)
Record ea_world (E : Type) := EaWorld { ea_of : N -> E; ea_truth : N -> option E }.
Arguments ea_of {E}. Arguments ea_truth {E}.
Definition ea_extract {E} (w : ea_world E) (c : amap status) (on_disk : option E) (k : N) : option E :=
  match mfind k c with
  | None => on_disk
  | Some s => match s_present s with et_saved => Some (ea_of w k) | et_present => on_disk | _ => None end
  end.
Definition ea_act {E} (w : path -> ea_world E) (e : tree) (p : path) (o : option E) (k : N) : option E := ea_extract (w p) (t_chg e) o k.
Definition ea_honest {E} (w : ea_world E) (c : amap status) : Prop :=
  forall before k s after, c = before ++ (k, s) :: after ->
    match s_present s with
    | et_saved => ea_truth w k = Some (ea_of w k)
    | et_present => forall older j s', before = older ++ [(j, s')] -> ea_truth w k = ea_truth w j
    | _ => ea_truth w k = None
    end.
Definition last_ea {E} (w : ea_world E) (c : amap status) : option E := match rev c with [] => None | (k, _) :: _ => ea_truth w k end.
(** the metadata of an inode change when its data do *)
Definition ctime_later (e : tree) : Prop := forall k s s', In (k, s) (t_mods e) -> In (k, s') (t_chg e) -> instant (date s) <= instant (s_date s').
(** one path is above the other, or they are the same *)
Definition related (p q : path) : Prop := exists r, p = q ++ r \/ q = p ++ r.
