(** * Specification of the hooks of a backup (C50). Paths go from the root of the backup. *)
From Coq Require Import List Bool PeanoNat.
From Verif Require Import Base BackupModel BackupSpec.
Import ListNotations.
Open Scope N_scope.

Section Spec.
Variable c : cfg.
Variable ref : list rnode.
Variable root : list fnode.
(** entries whose data are to be saved *)
Definition to_save (p : list name) (x : fnode) : Prop :=
  found c root p x /\ wanted c p x /\ f_fail (ffacts x) <> Early /\ exists a, compared c ref p x a /\ changed c (f_id (ffacts x)) a = true.
(** the plain files whose data are read *)
Definition copied_file (p : list name) : Prop := exists n f, f_kind f = 0 /\ to_save p (Fil n f).
(** the mask of the hooks selects an entry to save *)
Definition selected (p : list name) : Prop := hook c p = true /\ exists x, to_save p x.
(** and no directory above it *)
Definition hooked (p : list name) : Prop := selected p /\ forall d e, p = d ++ e -> e <> [] -> ~ selected d.
(** the events: a file read out of any hook, or a start, the reading of all the files of the hooked entry and nothing else, an end *)
Inductive event := Start (p : list name) | Finish (p : list name) | Reads (p : list name).
Inductive well_hooked : list event -> Prop :=
| wh_nil : well_hooked []
| wh_file : forall p l, copied_file p -> (forall d e, p = d ++ e -> ~ selected d) -> well_hooked l -> well_hooked (Reads p :: l)
| wh_hook : forall p q l, hooked p -> NoDup q -> (forall f, In f q <-> copied_file f /\ exists e, f = p ++ e) -> well_hooked l -> well_hooked (Start p :: map Reads q ++ Finish p :: l).
(** directories that the filters leave out, or whose saving fails after their hook, are not under a path selected by the hooks *)
Definition calm : Prop := forall p n f o k, found c root p (Dir n f o k) ->
  (~ wanted c p (Dir n f o k) -> forall d e, p = d ++ e -> d <> [] -> e <> [] -> hook c d = false) /\ (f_fail f = Late -> forall d e, p = d ++ e -> d <> [] -> hook c d = false).
End Spec.
(** the events of the model *)
Definition seen (e : ev) : event := match e with Hook_start p => Start (rev p) | Hook_end p => Finish (rev p) | Data p => Reads (rev p) end.
