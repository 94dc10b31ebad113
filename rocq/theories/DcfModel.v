(** * DcfModel: configuration files: comments, conditions, words

    Models src/dar_suite/hide_file.cpp, no_comment.cpp, config_file.cpp,
    line_tools_split_in_words of line_tools.hpp and the part of make_args_from_file
    (command_line.cpp) that goes from the file to the words.

    Simplifications: the file below a hide_file is a list of bytes read from one place (for the
    conditions the file below is what the comment remover shows: the theorem on hide_file says
    that one behaves as the other); isalpha and isalnum are those of the C locale; sizes and
    offsets are unbounded. *)
From Coq Require Import List String Ascii.
From Verif Require Import Base.
Local Open Scope nat_scope.

Definition NL : N := 10%N.
Definition TAB : N := 9%N.
Definition CR : N := 13%N.
Definition SP : N := 32%N.
Definition HASH : N := 35%N.
Definition COLON : N := 58%N.
Definition BS : N := 92%N.

(** ** hide_file.hpp:57-61 *)
Record partie := { debut : nat; longueur : nat; offset : nat }.
(** pos_index, pos_relicat *)
Record hpos := { idx : nat; relicat : nat }.
(** what ref->skip then ref->read gives *)
Definition ref_read (f : list N) (p n : nat) : list N := firstn n (skipn p f).

(** hide_file::inherited_read, hide_file.cpp:139-171; note that [lu], the total read so far, is what is added to pos_relicat *)
Fixpoint hread_loop (fuel : nat) (f : list N) (m : list partie) (h : hpos) (size lu : nat) (acc : list N) : res (hpos * list N) :=
  if negb (lu <? size) then Ok (h, acc)
  else
    match nth_error m (idx h) with
    | None => Ok (h, acc)
    | Some p =>
      match fuel with
      | O => Err Fuel
      | S fuel' =>
        let maxlire := Nat.min (longueur p - relicat h) (size - lu) in
        let got := ref_read f (debut p + relicat h) maxlire in
        if (length got =? 0) && (0 <? maxlire) then Err Ebug
        else
          let lu' := lu + length got in
          let rel := relicat h + lu' in
          let h' := if longueur p <=? rel then {| idx := S (idx h); relicat := 0 |} else {| idx := idx h; relicat := rel |} in
          hread_loop fuel' f m h' size lu' (acc ++ got)
      end
    end.
Definition hread (f : list N) (m : list partie) (h : hpos) (size : nat) : res (hpos * list N) :=
  hread_loop (S size + length m) f m h size 0 [].
(** hide_file::skip, hide_file.cpp:42-60: index of the first piece that does not end before pos *)
Fixpoint hfind (m : list partie) (i pos : nat) : option (nat * partie) :=
  match m with
  | [] => None
  | p :: r => if offset p + longueur p - 1 <? pos then hfind r (S i) pos else Some (i, p)
  end.
Definition hskip (m : list partie) (h : hpos) (pos : nat) : res (hpos * bool) :=
  match hfind m 0 pos with
  | None => Ok (h, false)
  | Some (i, p) => if pos <? offset p then Err Ebug else Ok ({| idx := i; relicat := pos - offset p |}, true)
  end.
(** hide_file::get_position, hide_file.cpp:125-137 *)
Definition hposition (m : list partie) (h : hpos) : nat :=
  match nth_error m (idx h) with
  | Some p => offset p + relicat h
  | None => match rev m with [] => 0 | p :: _ => offset p + longueur p end
  end.
(** reading byte after byte to the end, as fill_morceau and line_tools_split_in_words do *)
Fixpoint hread_all (fuel : nat) (f : list N) (m : list partie) (h : hpos) : res (list N) :=
  match fuel with
  | O => Err Fuel
  | S fuel' =>
    let* '(h', x) := hread f m h 1 in
    match x with [] => Ok [] | _ => let* y := hread_all fuel' f m h' in Ok (x ++ y) end
  end.

(** ** a caller of a hide_file: it skips, reads bytes one at a time, asks where it is *)
Inductive hop := Skip (p : nat) | Read1 | Tell.
Inductive hout := Moved (b : bool) | Got (x : list N) | At (p : nat).
Definition hdo (f : list N) (m : list partie) (h : hpos) (o : hop) : res (hpos * hout) :=
  match o with
  | Skip p => let* '(h', b) := hskip m h p in Ok (h', Moved b)
  | Read1 => let* '(h', x) := hread f m h 1 in Ok (h', Got x)
  | Tell => Ok (h, At (hposition m h))
  end.
Fixpoint hdo_all (f : list N) (m : list partie) (h : hpos) (os : list hop) : res (list hout) :=
  match os with [] => Ok [] | o :: r => let* '(h', x) := hdo f m h o in let* y := hdo_all f m h' r in Ok (x :: y) end.

(** ** no_comment::fill_morceau, no_comment.cpp:27-101 *)
Inductive nstatus := st_unknown | st_command | st_comment.
Record nstate := { stt : nstatus; tmp : partie; last_offset : nat; last_is_comment : bool; morceau : list partie }.
Definition with_lon (p : partie) (n : nat) : partie := {| debut := debut p; longueur := n; offset := offset p |}.
(** the end of a command line: [pos] is ref->get_position() *)
Definition nend (s : nstate) (tmp' : partie) (pos : nat) : res nstate :=
  let* '(mor, lo) :=
    if last_is_comment s then Ok (morceau s ++ [tmp'], offset tmp' + longueur tmp')
    else match rev (morceau s) with
         | [] => Err Ebug
         | b :: r => let b' := with_lon b (pos - debut b) in Ok (rev r ++ [b'], offset b' + longueur b')
         end in
  Ok {| stt := st_unknown; tmp := with_lon tmp' 0; last_offset := lo; last_is_comment := false; morceau := mor |}.
Definition nstep (s : nstate) (a : N) (stop : bool) (pos : nat) : res nstate :=
  match stt s with
  | st_unknown =>
    if N.eqb a SP || N.eqb a TAB then Ok {| stt := st_unknown; tmp := with_lon (tmp s) (S (longueur (tmp s))); last_offset := last_offset s; last_is_comment := last_is_comment s; morceau := morceau s |}
    else if N.eqb a NL then Ok {| stt := st_unknown; tmp := with_lon (tmp s) 0; last_offset := last_offset s; last_is_comment := last_is_comment s; morceau := morceau s |}
    else if N.eqb a HASH then Ok {| stt := st_comment; tmp := tmp s; last_offset := last_offset s; last_is_comment := last_is_comment s; morceau := morceau s |}
    else Ok {| stt := st_command; tmp := {| debut := pos - 1; longueur := 1; offset := last_offset s |}; last_offset := last_offset s; last_is_comment := last_is_comment s; morceau := morceau s |}
  | st_comment =>
    if N.eqb a NL then Ok {| stt := st_unknown; tmp := with_lon (tmp s) 0; last_offset := last_offset s; last_is_comment := true; morceau := morceau s |}
    else Ok s
  | st_command =>
    let tmp' := if stop then tmp s else with_lon (tmp s) (S (longueur (tmp s))) in
    if N.eqb a NL || stop then nend s tmp' pos
    else Ok {| stt := st_command; tmp := tmp'; last_offset := last_offset s; last_is_comment := last_is_comment s; morceau := morceau s |}
  end.
(** the loop: when nothing is read a keeps its value *)
Fixpoint nloop (rest : list N) (pos : nat) (a : N) (s : nstate) : res nstate :=
  match rest with
  | [] => nstep s a true pos
  | c :: r => let* s' := nstep s c false (S pos) in nloop r (S pos) c s'
  end.
Definition ninit : nstate := {| stt := st_unknown; tmp := {| debut := 0; longueur := 0; offset := 0 |}; last_offset := 0; last_is_comment := true; morceau := [] |}.
Definition no_comment (f : list N) : res (list partie) := let* s := nloop f 0 SP ninit in Ok (morceau s).

(** ** config_file *)
Definition isalpha (a : N) : bool := ((65 <=? a) && (a <=? 90) || (97 <=? a) && (a <=? 122))%N.
Definition isalnum (a : N) : bool := isalpha a || ((48 <=? a) && (a <=? 57))%N.
Inductive tstatus := t_init | t_search | t_end | t_purge.
(** find_next_target, config_file.cpp:135-208: the place of the line, the word and the place after the line; what is left to read *)
Fixpoint find_next_target (rest : list N) (pos deb : nat) (nature : list N) (st : tstatus) : option (nat * list N * nat) * list N :=
  match rest with
  | [] => (None, [])
  | a :: r =>
    match st with
    | t_init =>
      if N.eqb a SP || N.eqb a TAB then find_next_target r (S pos) deb nature t_init
      else if N.eqb a NL then find_next_target r (S pos) (S pos) nature t_init
      else if isalpha a then find_next_target r (S pos) deb [a] t_search
      else find_next_target r (S pos) deb nature t_purge
    | t_search =>
      if isalnum a || N.eqb a 95 || N.eqb a 45 then find_next_target r (S pos) deb (nature ++ [a]) t_search
      else if N.eqb a COLON then find_next_target r (S pos) deb nature t_end
      else if N.eqb a NL then find_next_target r (S pos) (S pos) nature t_init
      else find_next_target r (S pos) deb nature t_purge
    | t_end =>
      if N.eqb a SP || N.eqb a TAB || N.eqb a CR then find_next_target r (S pos) deb nature t_end
      else if N.eqb a NL then (Some (deb, nature, S pos), r)
      else find_next_target r (S pos) deb nature t_purge
    | t_purge =>
      if N.eqb a NL then find_next_target r (S pos) (S pos) nature t_init
      else find_next_target r (S pos) deb nature t_purge
    end
  end.
(** is_a_target, config_file.cpp:118-132, without the record of the targets seen *)
Definition leqb (a b : list N) : bool := if list_eq_dec N.eq_dec a b then true else false.
Definition is_a_target (cibles : list (list N)) (v : list N) : bool := existsb (leqb v) cibles.
(** fill_morceau, config_file.cpp:63-115; [fin]: status is fin; [total]: the size of the file *)
Fixpoint cloop (fuel : nat) (cibles : list (list N)) (total : nat) (rest : list N) (pos : nat) (fin : bool) (t : partie) (lo : nat) (mor : list partie) : res (list partie) :=
  match fuel with
  | O => Err Fuel
  | S fuel' =>
    match find_next_target rest pos pos [] t_init with
    | (Some (first, name, last), rest') =>
      let* '(t1, lo1, mor1) :=
        if fin then
          if first <? debut t then Err Ebug
          else let t' := with_lon t (first - debut t) in
               Ok (t', lo + longueur t', if 0 <? longueur t' then mor ++ [t'] else mor)
        else Ok (t, lo, mor) in
      if is_a_target cibles name
      then cloop fuel' cibles total rest' last true {| debut := last; longueur := longueur t1; offset := lo1 |} lo1 mor1
      else cloop fuel' cibles total rest' last false t1 lo1 mor1
    | (None, _) =>
      if fin then
        if total <? debut t then Err Ebug
        else let t' := with_lon t (total - debut t) in Ok (if 0 <? longueur t' then mor ++ [t'] else mor)
      else Ok mor
    end
  end.
Definition config_file (cibles : list (list N)) (f : list N) : res (list partie) :=
  cloop (S (length f)) cibles (length f) f 0 true {| debut := 0; longueur := 0; offset := 0 |} 0 [].

(** ** line_tools_split_in_words, line_tools.hpp:322-418; [quotes]: its back first *)
Definition is_quote (a : N) : bool := (N.eqb a 34 || N.eqb a 39 || N.eqb a 96).
Record wstate := { quotes : list N; current : list N; escaped : bool; mots : list (list N) }.
Definition wstep (s : wstate) (a : N) : wstate :=
  if escaped s then {| quotes := quotes s; current := current s ++ [a]; escaped := false; mots := mots s |}
  else if N.eqb a BS then {| quotes := quotes s; current := current s; escaped := true; mots := mots s |}
  else
    match quotes s with
    | [] =>
      if N.eqb a SP || N.eqb a TAB || N.eqb a NL || N.eqb a CR then s
      else if is_quote a then {| quotes := [a]; current := current s; escaped := false; mots := mots s |}
      else {| quotes := [SP]; current := current s ++ [a]; escaped := false; mots := mots s |}
    | q :: qs =>
      if N.eqb a TAB && negb (N.eqb q SP) then s
      else
        let a' := if N.eqb a TAB || N.eqb a NL || N.eqb a CR then SP else a in
        if N.eqb a' SP || is_quote a' then
          if N.eqb a' q then
            match qs with
            | [] => {| quotes := []; current := []; escaped := false; mots := mots s ++ [current s] |}
            | _ => {| quotes := qs; current := current s ++ [a']; escaped := false; mots := mots s |}
            end
          else {| quotes := if N.eqb a' SP then q :: qs else a' :: q :: qs; current := current s ++ [a']; escaped := false; mots := mots s |}
        else {| quotes := q :: qs; current := current s ++ [a]; escaped := false; mots := mots s |}
    end.
Fixpoint wloop (t : list N) (s : wstate) : wstate :=
  match t with [] => wstep s SP | a :: r => wloop r (wstep s a) end.
Definition split_in_words (t : list N) : res (list (list N)) :=
  let s := wloop t {| quotes := []; current := []; escaped := false; mots := [] |} in
  match quotes s with [] => Ok (mots s) | _ => Err Erange end.

(** ** make_args_from_file, command_line.cpp:2828-2918 *)
Definition str (s : string) : list N := map N_of_ascii (list_ascii_of_string s).
Inductive operation := noop | create | extract | diff | test | listing | merging | isolate | repairing.
Definition op_targets (op : operation) : list (list N) :=
  match op with
  | noop => [str "default"] | create => [str "create"] | extract => [str "extract"] | diff => [str "diff"] | test => [str "test"]
  | listing => [str "listing"; str "list"] | merging => [str "merge"] | isolate => [str "isolate"] | repairing => [str "repair"]
  end.
Definition make_args (op : operation) (targets : list (list N)) (f : list N) : res (list (list N)) :=
  let* m1 := no_comment f in
  let* v := hread_all (S (length f)) f m1 {| idx := 0; relicat := 0 |} in
  let* m2 := config_file ((targets ++ [str "all"]) ++ op_targets op) v in
  let* w := hread_all (S (length v)) v m2 {| idx := 0; relicat := 0 |} in
  split_in_words w.
