(** * FsaSpec: what a list of filesystem specific attributes means

    An attribute list is a finite map from kinds (family and nature) to values. *)
From Coq Require Import List.
From Verif Require Import Base DatetimeModel FsaModel PropDatetime.
Local Open Scope N_scope.

(** Same family and same nature. *)
Definition same_kind (a b : fsa) : Prop := fam a = fam b /\ ntr a = ntr b.

(** The value of an attribute is a date for a creation date, a boolean otherwise. *)
Definition typed (a : fsa) : Prop :=
  match ntr a with
  | Creation_date => exists d, v a = VTime d /\ date d
  | _ => exists b, v a = VBool b
  end.

(** The lists libdar handles: empty, read from a filesystem (which gives each kind at most
    once), extended, merged, or read back from an archive. *)
Inductive fsa_list : list fsa -> Prop :=
| fl_empty : fsa_list []
| fl_filesystem : forall l, Forall typed l -> (forall i j a b, nth_error l i = Some a -> nth_error l j = Some b -> same_kind a b -> i = j) ->
    fsa_list (sort l)
| fl_add : forall l a, fsa_list l -> typed a -> fsa_list (add l a)
| fl_plus : forall l m, fsa_list l -> fsa_list m -> fsa_list (plus l m)
| fl_archive : forall l bytes rest ver m r, fsa_list l -> write l = Ok bytes -> 9 <= ver -> read ver (bytes ++ rest) = Ok (m, r) -> fsa_list m.

(** Number of dates expressed in whole seconds. *)
Fixpoint whole_seconds (l : list fsa) : N :=
  match l with
  | [] => 0
  | a :: r => (match v a with VTime (DT _ tu_s) => 1 | _ => 0 end) + whole_seconds r
  end.

(** The Linux flag an attribute stands for, and the value wanted for it. *)
Definition wants (l : list fsa) (i : N) (b : bool) : Prop :=
  exists a, In a l /\ fam a = ExtX /\ bit (ntr a) = Some i /\ v a = VBool b.
