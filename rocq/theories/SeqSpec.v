(** * What sequential reading is expected to report, independently of the stream: used by C43. *)
From Coq Require Import List.
From Verif Require Import Base InfinintModel CrcModel PropCrc DatetimeModel HeaderModel PathModel EscapeModel EscapeSpec CatModel CatSpec SeqModel.
Import ListNotations.
Open Scope N_scope.

(** the inode an entry stands for, and the size announced when it is a file *)
Definition inode_of (st : stars) (e : entry) : option (cinode * option N) :=
  match e with
  | Eino i k => Some (i, file_size k)
  | Edir i _ => Some (i, None)
  | Eigndir i => Some (ignored_as_dir i, None)
  | Emir _ a => option_map (fun s => (st_ino s, file_size (st_kind s))) (st a)
  | Edet _ _ _ | Eign _ => None
  end.
Definition opens (e : entry) : bool := match e with Edir _ _ | Eigndir _ => true | _ => false end.
(** a link to an inode already saved *)
Definition known (done : list N) (e : entry) : bool := match e with Emir _ a => mem a done | _ => false end.
Definition set_of (st : stars) (e : entry) : N := match e with Emir _ a => match st a with Some s => st_etiq s | None => 0 end | _ => 0 end.
Definition attributes (i : cinode) (l : eas) : option eas := match i_ea i with EAfull => Some l | EAremo => Some [] | _ => None end.

(** what is restored, in an empty place, of what the backup did for an entry: the last copy *)
Definition restored (st : stars) (done : list N) (r : rec) : outcome :=
  match inode_of st (r_entry r) with
  | None => Oerr
  | Some (i, _) =>
    match i_saved i with
    | Ssaved =>
      if known done (r_entry r) then Olink (set_of st (r_entry r)) else
      match r_body r with
      | Bnone => Odone None false (attributes i (r_ea r))
      | Bdata _ last dirty => Odone (Some (snd last)) dirty (attributes i (r_ea r))
      | Bfailed _ | Baborted _ _ => Oerr
      end
    | Snot_saved | Sfake => if opens (r_entry r) then Odone None false (attributes i (r_ea r)) else Onothing
    | Sdelta | Sinode_only => Oerr          (* these need a file in place *)
    end
  end.
(** a file that could not be opened is left out *)
Definition dropped (r : rec) : bool := match r_body r with Bfailed [] => true | _ => false end.

(** The report on a sequence of events: the lines, the shared inodes saved, the current directory (of those that are covered) and
    the number of directories open below the one left out, if any. *)
Definition place : Type := list N * dirpath * nat.
Definition step_lines (st : stars) (cov : dirpath -> bool -> bool) (p : place) (ev : event) : list line * place :=
  let '(done, at_, skip) := p in
  match ev with
  | Eend => ([], match skip with S k => (done, at_, k) | O => (done, tl at_, O) end)
  | Eput r =>
    let e := r_entry r in
    let done' := rec_marks st done r in
    if dropped r then ([], (done', at_, skip)) else
    match skip with
    | S _ => ([], (done', at_, if opens e then S skip else skip))
    | O =>
      let here := name_of e :: at_ in
      if cov here (opens e) then ([Line here (expected true st e) (restored st done r)], (done', (if opens e then here else at_), O))
      else ([Line here (expected true st e) Oskip], (done', at_, if opens e then 1%nat else O))
    end
  end.
Fixpoint report (st : stars) (cov : dirpath -> bool -> bool) (p : place) (evs : list event) : list line * place :=
  match evs with
  | [] => ([], p)
  | ev :: evs => let '(a, p) := step_lines st cov p ev in let '(b, p) := report st cov p evs in (a ++ b, p)
  end.

(** directories are closed in order; [d] are open *)
Fixpoint nested (d : nat) (evs : list event) : Prop :=
  match evs with
  | [] => True
  | Eput r :: evs => nested (if opens (r_entry r) then S d else d) evs
  | Eend :: evs => match d with O => False | S d => nested d evs end
  end.
Fixpoint depth_after (d : nat) (evs : list event) : nat :=
  match evs with
  | [] => d
  | Eput r :: evs => depth_after (if opens (r_entry r) then S d else d) evs
  | Eend :: evs => depth_after (pred d) evs
  end.

(** what a backup does for an entry *)
Definition same_width (size : N) (l : list (N * list N)) : Prop := Forall (fun c => crc_width (fst c) = crc_width size) l.
Definition eas_ok (l : eas) : Prop := NoDup (map fst l) /\ Forall (fun p => no_nul (fst p)) l.
Definition rec_ok (st : stars) (done : list N) (r : rec) : Prop :=
  let e := r_entry r in
  entry_ok true st e /\
  exists i size, inode_of st e = Some (i, size) /\ i_fsa i <> FSAfull /\
  (* a shared inode is held by the filesystem object (filesystem_hard_link_read.hpp:60-70) besides the entry: its count is more than one *)
  (forall n a s, e = Emir n a -> st a = Some s -> is_set s = true) /\
  (opens e = true -> i_saved i <> Sdelta /\ i_saved i <> Sinode_only) /\
  (* data is written for a file whose data is to be saved, and for no other entry *)
  match r_body r with
  | Bnone => known done e = true \/ size = None \/ stored (i_saved i) = false
  | Bfailed w | Baborted w _ => exists k z, e = Eino i k /\ size = Some z /\ stored (i_saved i) = true /\ same_width z w
  | Bdata w last dirty => known done e = false /\ stored (i_saved i) = true /\ (exists z, size = Some z /\ same_width z (w ++ [last])) /\
                          (dirty = true -> i_ea i <> EAfull)
  end /\
  (i_ea i = EAfull -> eas_ok (r_ea r) /\ exists n, i_ea_size i = Some n /\ n <> 0).
Fixpoint events_ok (st : stars) (done : list N) (evs : list event) : Prop :=
  match evs with
  | [] => True
  | Eput r :: evs => rec_ok st done r /\ events_ok st (rec_marks st done r) evs
  | Eend :: evs => events_ok st done evs
  end.

(** ** a stream that stops *)
(** What is read of the items [full] when the file stops within the bytes that hold them: the items before that point, then, when
    the file stops in the middle of a mark, the few bytes that are left of it. *)
Definition cut (full its : list item) : Prop :=
  exists a b junk, full = a ++ b /\ its = a ++ map D junk /\ match b with D _ :: _ => junk = [] | _ => True end.

(** the copies made of a file *)
Definition copies_of (r : rec) : list (list N) :=
  match r_body r with
  | Bnone => []
  | Bfailed w | Baborted w _ => map snd w
  | Bdata w last _ => map snd w ++ [snd last]
  end.
(** what may be reported of the entry being saved when the archive stopped: what a complete archive gives, an error, or one of the copies of the
    file, without the mention it is dirty *)
Definition partly (st : stars) (done : list N) (r : rec) (o : outcome) : Prop :=
  o = restored st done r \/ o = Oerr \/ o = Ohang \/ o = Oundef \/
  exists i size d, inode_of st (r_entry r) = Some (i, size) /\ In d (copies_of r) /\ o = Odone (Some d) false (attributes i (r_ea r)).

(** no catalogue was reached: an error is raised, unless reading goes on in spite of errors (lax) *)
Definition unfinished (lax : bool) (f : fin) : Prop := (lax = true /\ f = Fnormal) \/ exists e, f = Fexn e.
Definition event_items (st : stars) (done : list N) (ev : event) : res (list item) := match ev with Eput r => rec_items st done r | Eend => eod_items end.
(** the lines about the event being recorded when the archive stopped, [n] items of it being there: none as long as its header is not complete *)
Definition in_progress (st : stars) (cov : dirpath -> bool -> bool) (p : place) (ev : event) (n : nat) (l : list line) : Prop :=
  let '(done, at_, skip) := p in
  match ev with
  | Eend => l = []
  | Eput r =>
    exists h, small_dump st done (r_entry r) = Ok h /\
    if (n <=? length h)%nat then l = [] else
    match skip with
    | S _ => l = []
    | O => let here := name_of (r_entry r) :: at_ in
           exists o, l = [Line here (expected true st (r_entry r)) o] /\ if cov here (opens (r_entry r)) then partly st done r o else o = Oskip
    end
  end.
Definition top : place := ([], [], O).
(** where the archive stopped, and the lines then reported *)
Inductive stopped (st : stars) (cov : dirpath -> bool -> bool) (c : catalogue) (evs : list event) (its : list item) : list line -> Prop :=
| at_head : forall a b junk, head_items c = a ++ b -> b <> [] -> its = a ++ map D junk -> stopped st cov c evs its []
| at_event : forall e1 ev e2 a x y junk more, evs = e1 ++ ev :: e2 -> events_items st [] e1 = Ok a ->
    event_items st (fst (fst (snd (report st cov top e1)))) ev = Ok (x ++ y) -> y <> [] -> its = head_items c ++ a ++ x ++ map D junk ->
    in_progress st cov (snd (report st cov top e1)) ev (length x) more ->
    stopped st cov c evs its (fst (report st cov top e1) ++ more)
| at_catalogue : forall a b done x y junk, events_items st [] evs = Ok a -> cat_dump [] c = Ok (b, done) -> M seqt_catalogue :: map D b = x ++ y -> y <> [] ->
    its = head_items c ++ a ++ x ++ map D junk -> stopped st cov c evs its (fst (report st cov top evs)).

(** ** what a stream, damaged or not, vouches for *)
Definition vouched_data (its : list item) (b : list N) : Prop :=
  exists p q k rest w, its = p ++ map D b ++ M seqt_file_crc :: q /\ crc_get (data_before q) = Ok (k, rest) /\ w <> O /\ cyclic k = checksum w b.
Definition vouched_ea (its : list item) (l : eas) : Prop :=
  exists p b left q k rest w, its = p ++ M seqt_ea :: map D (b ++ left) ++ M seqt_ea_crc :: q /\ ea_read (b ++ left) = Ok (l, left) /\
    crc_get (data_before q) = Ok (k, rest) /\ w <> O /\ cyclic k = checksum w b.
