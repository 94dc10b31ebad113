(** * Model of the cancellation of threads: thread_cancellation.cpp.

    Threads and objects are numbered. A step of [step] is what a thread does between two points where another thread may run: a critical section (CRITICAL_START ... CRITICAL_END), or, in
    check_self_cancellation, the reading of the fields of the object outside of any critical section. Left out: the null pointers that would be in the list of the objects (never put there), the
    blocking of signals, copies of objects (the copy constructor registers nothing), builds without threads. dead_thread() is three steps; the third one is not in a critical section in the code (:318), it
    is taken as atomic. *)
From Coq Require Import List Bool PeanoNat.
From Verif Require Import Base.
Import ListNotations.
Open Scope nat_scope.

(** thread_cancellation.hpp:165-173 *)
Record fields := Fl { tid : nat; block_delayed : bool; immediate : bool; cancellation : bool; thrown : bool; cflag : N }.
(** the static fields info (each object with its number), preborn and thread_asso, thread_cancellation.hpp:179-182 *)
Record world := Wd { info : list (nat * fields); preborn : list fields; asso : list (nat * nat) }.
Definition of_tid (t : nat) (f : fields) : bool := tid f =? t.
Definition find_info (t : nat) (w : world) : option fields := option_map snd (find (fun x => of_tid t (snd x)) (info w)).
Definition status (o : nat) (w : world) : option fields := option_map snd (find (fun x => fst x =? o) (info w)).
(** applies [g] to all the objects of thread [t] *)
Definition set_info (t : nat) (g : fields -> fields) (l : list (nat * fields)) : list (nat * fields) := map (fun x => if of_tid t (snd x) then (fst x, g (snd x)) else x) l.

(** the constructor, :60-103 *)
Fixpoint erase_first (t : nat) (l : list fields) : list fields :=
  match l with [] => [] | f :: l => if of_tid t f then l else f :: erase_first t l end.
Definition make (t o : nat) (w : world) : world :=
  match find_info t w with
  | Some f => Wd (info w ++ [(o, f)]) (preborn w) (asso w)
  | None => match find (of_tid t) (preborn w) with
            | Some f => Wd (info w ++ [(o, f)]) (erase_first t (preborn w)) (asso w)
            | None => Wd (info w ++ [(o, Fl t false true false false 0)]) (preborn w) (asso w)
            end
  end.
(** the destructor, :105-127 *)
Fixpoint erase_obj (o : nat) (l : list (nat * fields)) : list (nat * fields) :=
  match l with [] => [] | x :: l => if fst x =? o then l else x :: erase_obj o l end.
Definition unmake (o : nat) (w : world) : world := Wd (erase_obj o (info w)) (preborn w) (asso w).
(** set_cancellation_in_info_for, :322-353: found, and the previous value (of the last object of the thread), if found *)
Definition set_for (t : nat) (c i th : bool) (fl : N) (w : world) : world * option bool :=
  (Wd (set_info t (fun f => Fl (tid f) (block_delayed f) i c th fl) (info w)) (preborn w) (asso w),
   option_map (fun x => cancellation (snd x)) (find (fun x => of_tid t (snd x)) (rev (info w)))).
(** add_to_preborn, :355-375 *)
Fixpoint put_preborn (t : nat) (n : fields) (l : list fields) : list fields :=
  match l with [] => [n] | f :: l => if of_tid t f then n :: l else f :: put_preborn t n l end.
Definition add_to_preborn (t : nat) (i : bool) (fl : N) (w : world) : world := Wd (info w) (put_preborn t (Fl t false i true false fl) (preborn w)) (asso w).
(** remove_from_preborn, :377-394 *)
Definition remove_from_preborn (t : nat) (w : world) : world * option bool :=
  (Wd (info w) (filter (fun f => negb (of_tid t f)) (preborn w)) (asso w), option_map cancellation (find (of_tid t) (rev (preborn w)))).
(** cancel, :199-223, and the threads associated, :396-403 *)
Definition cancel_one (t : nat) (i : bool) (fl : N) (w : world) : world :=
  let (w', found) := set_for t true i false fl w in match found with Some _ => w' | None => add_to_preborn t i fl w' end.
Definition targets (t : nat) (w : world) : list nat := t :: map snd (filter (fun x => fst x =? t) (asso w)).
Definition cancel (t : nat) (i : bool) (fl : N) (w : world) : world := fold_left (fun w d => cancel_one d i fl w) (targets t w) w.
(** cancel_status, :227-258 *)
Definition cancel_status (t : nat) (w : world) : bool :=
  match find_info t w with Some f => cancellation f | None => match find (of_tid t) (preborn w) with Some f => cancellation f | None => false end end.
(** clear_pending_request, :260-287: the value returned is overwritten by each thread that is found *)
Definition clear_one (t : nat) (w : world) (ret : bool) : world * bool :=
  let (w', found) := set_for t false false false 0 w in
  match found with Some v => (w', v) | None => let (w2, prev) := remove_from_preborn t w' in (w2, match prev with Some v => v | None => ret end) end.
Definition clear_pending (t : nat) (w : world) : world * bool := fold_left (fun x d => clear_one d (fst x) (snd x)) (targets t w) (w, false).
(** associate_tid_to_tid, :289-294 (multimap: a new pair comes after those of the same key); remove_association_for_tid, :296-301; remove_association_targeted_at, :303-324 *)
Definition associate (s d : nat) (w : world) : world := Wd (info w) (preborn w) (asso w ++ [(s, d)]).
Definition unsource (s : nat) (w : world) : world := Wd (info w) (preborn w) (filter (fun x => negb (fst x =? s)) (asso w)).
Definition untarget (d : nat) (w : world) : world := Wd (info w) (preborn w) (filter (fun x => negb (snd x =? d)) (asso w)).
(** block_delayed_cancellation, :163-196 (critical section) *)
Definition block (t : nat) (m : bool) (w : world) : world :=
  Wd (set_info t (fun f => Fl (tid f) m (immediate f) (cancellation f) (thrown f) (cflag f)) (info w)) (preborn w) (asso w).
(** check_self_cancellation, :129-144: the test; flag_exception_thrown, :405-433 *)
Definition due (f : fields) : bool := cancellation f && negb (thrown f) && (immediate f || negb (block_delayed f)).
Definition flag_thrown (t : nat) (w : world) : world * bool :=
  (Wd (set_info t (fun f => Fl (tid f) (block_delayed f) (immediate f) (cancellation f) true (cflag f)) (info w)) (preborn w) (asso w),
   existsb (fun x => of_tid t (snd x) && negb (thrown (snd x))) (info w)).

(** ** threads *)
(** where a thread is: out of the class; about to do the test of a check; the test passed; about to throw *)
Inductive phase := Idle | Checking (o : nat) | Passed (o : nat) | Raising (o : nat).
Definition phases := nat -> phase.
Definition go (t : nat) (p : phase) (ps : phases) : phases := fun x => if x =? t then p else ps x.
(** what happens. [Quit t]: check_self_cancellation returns normally; [Throw t i fl]: it throws Ethread_cancel(i, fl) *)
Inductive ev := New (t o : nat) | Del (t o : nat) | Block (t o : nat) (m : bool) | Check (t o : nat) | Test (t : nat) (r : bool) | Flag (t : nat) (r : bool) | Throw (t : nat) (i : bool) (fl : N)
  | Cancel (t : nat) (i : bool) (fl : N) | Clear (t : nat) (r : bool) | Status (t : nat) (r : bool) | Self (t o : nat) (r : bool) | Assoc (s d : nat) | Unsource (s : nat) | Untarget (d : nat) | Forget (t : nat).
Definition state := (world * phases)%type.
Definition owns (t o : nat) (w : world) : Prop := exists f, status o w = Some f /\ tid f = t.
(** objects are used by the thread that made them *)
Inductive step : state -> ev -> state -> Prop :=
  | s_new : forall w ps t o, ps t = Idle -> status o w = None -> step (w, ps) (New t o) (make t o w, ps)
  | s_del : forall w ps t o, ps t = Idle -> owns t o w -> step (w, ps) (Del t o) (unmake o w, ps)
  | s_block : forall w ps t o, ps t = Idle -> owns t o w -> step (w, ps) (Block t o true) (block t true w, ps)
  | s_unblock : forall w ps t o, ps t = Idle -> owns t o w -> step (w, ps) (Block t o false) (block t false w, go t (Checking o) ps)
  | s_check : forall w ps t o, ps t = Idle -> owns t o w -> step (w, ps) (Check t o) (w, go t (Checking o) ps)
  | s_test : forall w ps t o f, ps t = Checking o -> status o w = Some f -> step (w, ps) (Test t (due f)) (w, go t (if due f then Passed o else Idle) ps)
  | s_flag : forall w ps t o, ps t = Passed o -> step (w, ps) (Flag t (snd (flag_thrown t w))) (fst (flag_thrown t w), go t (if snd (flag_thrown t w) then Raising o else Idle) ps)
  | s_throw : forall w ps t o f, ps t = Raising o -> status o w = Some f -> step (w, ps) (Throw t (immediate f) (cflag f)) (w, go t Idle ps)
  | s_cancel : forall w ps t i fl, step (w, ps) (Cancel t i fl) (cancel t i fl w, ps)
  | s_clear : forall w ps t, step (w, ps) (Clear t (snd (clear_pending t w))) (fst (clear_pending t w), ps)
  | s_status : forall w ps t, step (w, ps) (Status t (cancel_status t w)) (w, ps)
  (* self_is_under_cancellation, :146-153 *)
  | s_self : forall w ps t o f, ps t = Idle -> status o w = Some f -> tid f = t -> step (w, ps) (Self t o (cancellation f)) (w, ps)
  | s_assoc : forall w ps s d, step (w, ps) (Assoc s d) (associate s d w, ps)
  | s_unsource : forall w ps s, step (w, ps) (Unsource s) (unsource s w, ps)
  | s_untarget : forall w ps d, step (w, ps) (Untarget d) (untarget d w, ps)
  | s_forget : forall w ps t, step (w, ps) (Forget t) (fst (remove_from_preborn t w), ps).
Definition init : state := (Wd [] [] [], fun _ => Idle).
(** an execution and what happened, the last event first *)
Inductive runs : list ev -> state -> Prop :=
  | runs_nil : runs [] init
  | runs_cons : forall h s e s', runs h s -> step s e s' -> runs (e :: h) s'.
