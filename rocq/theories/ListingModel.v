(** * Model of file listings: eols (src/libdar/eols.cpp, eols.hpp) and mask_list (src/libdar/mask_list.cpp).

    [up] is the upper case of a character: tools_to_upper (tools.cpp:968-992) is taken to work character by character, without
    changing the length of the string (true of single byte encodings; not modelled: multi-byte characters whose upper case has
    another length). Strings hold no NUL. *)
From Verif Require Import Base PathModel.
Open Scope nat_scope.

(** ** eols *)
(** class eols::in_progress, eols.hpp:70-88; [next_to_match] as an index *)
Record inprog := mk_ip { e_ref : str; e_pos : nat; e_byp : bool; e_passed : nat; e_larger : bool }.
(** reset, eols.hpp:76 *)
Definition ip_reset (p : inprog) : inprog := mk_ip (e_ref p) 0 false 0 false.
(** has_matched, eols.hpp:81; progression, eols.cpp:133-136 is [e_pos] *)
Definition has_matched (p : inprog) : bool := e_pos p =? length (e_ref p).
(** set_bypass, eols.cpp:138-150 *)
Definition set_bypass (prog : nat) (p : inprog) : inprog * bool :=
  if e_byp p then (p, true)
  else if has_matched p || (e_pos p <? prog) then (mk_ip (e_ref p) (e_pos p) true 0 (e_larger p), true)
  else (p, false).
(** match, eols.cpp:105-131 *)
Definition ip_match (c : N) (p : inprog) : res (inprog * bool) :=
  if e_byp p then Ok (if has_matched p then mk_ip (e_ref p) (e_pos p) true (S (e_passed p)) (e_larger p) else p, false)
  else match nth_error (e_ref p) (e_pos p) with
       | None => Err Ebug
       | Some x =>
         if (x =? c)%N then
           let p' := mk_ip (e_ref p) (S (e_pos p)) false (e_passed p) (e_larger p) in
           Ok (p', has_matched p')
         else if e_larger p then Ok (fst (set_bypass (S (e_pos p)) p), false)
         else Ok (ip_reset p, false)
       end.
(** the cutter: the sequences and ref_progression *)
Definition eols : Type := list inprog * nat.
(** the constructor, eols.cpp:35-56 *)
Fixpoint eols_make (seqs : list str) : res (list inprog) :=
  match seqs with
  | [] => Ok []
  | s :: r => match s with [] => Err Erange | _ => let* t := eols_make r in Ok (mk_ip s 0 false 0 false :: t) end
  end.
(** reset_detection, eols.cpp:58-68 *)
Definition reset_detection (e : eols) : eols := (map ip_reset (fst e), 0).
(** the first loop of eol_reached, eols.cpp:77-87 *)
Fixpoint match_all (c : N) (l : list inprog) (refp : nat) (new_match : bool) : res (list inprog * nat * bool) :=
  match l with
  | [] => Ok ([], refp, new_match)
  | p :: r =>
    let* '(p', m) := ip_match c p in
    let refp' := if m && (refp <? e_pos p') then e_pos p' else refp in
    let* '(r', refp'', nm) := match_all c r refp' (new_match || m) in
    Ok (p' :: r', refp'', nm)
  end.
(** bypass_or_larger, eols.cpp:152-168 *)
Definition bypass_or_larger (prog : nat) (l : list inprog) : list inprog * bool :=
  (map (fun p => let '(p', b) := set_bypass prog p in
                 if b then p' else mk_ip (e_ref p') (e_pos p') (e_byp p') (e_passed p') true) l,
   forallb (fun p => snd (set_bypass prog p)) l).
(** all_bypassed_or_matched, eols.cpp:170-178 *)
Definition all_bypassed_or_matched (l : list inprog) : bool := forallb (fun p => e_byp p || has_matched p) l.
(** find_larger_match, eols.cpp:180-201: None when nothing matches *)
Fixpoint find_larger_match (refp : nat) (l : list inprog) : res (option (nat * nat)) :=
  match l with
  | [] => Ok None
  | p :: r => if negb (has_matched p) || (e_pos p <? refp) then find_larger_match refp r
              else if refp <? e_pos p then Err Ebug
              else Ok (Some (length (e_ref p), e_passed p))
  end.
(** eol_reached, eols.cpp:70-113: Some (eol_sequence_length, after_eol_read_bytes) when it returns true *)
Definition eol_reached (c : N) (e : eols) : res (eols * option (nat * nat)) :=
  let* '(l, refp, new_match) := match_all c (fst e) (snd e) false in
  let all_done := if new_match then false else all_bypassed_or_matched l in
  if all_done || new_match then
    let '(l', larger_done) := if all_done then (l, true) else bypass_or_larger refp l in
    if larger_done then
      let* m := find_larger_match refp l' in
      match m with
      | Some x => Ok (reset_detection (l', refp), Some x)
      | None => Err Ebug
      end
    else Ok ((l', refp), None)
  else Ok ((l, refp), None).

(** ** reading the listing file, mask_list.cpp:93-251 *)
(** the two loops "while(... && !cutter.eol_reached(...)) ++": how many bytes were passed before the one, if any, on which the end of line
    was reported *)
Fixpoint scan (e : eols) (bytes : str) : res (eols * nat * option (nat * nat)) :=
  match bytes with
  | [] => Ok (e, 0, None)
  | c :: r =>
    let* '(e', m) := eol_reached c e in
    match m with
    | Some x => Ok (e', 0, Some x)
    | None => let* '(e'', k, m') := scan e' r in Ok (e'', S k, m')
    end
  end.
Definition slice (l : str) (a b : nat) : str := skipn a (firstn b l).
Definition drop_last (n : nat) (l : str) : str := firstn (length l - n) l.
Definition nonempty {A} (l : list A) : bool := match l with [] => false | _ => true end.
(** the state between two turns of the inner loop: cutter, curs, beg, current_entry, refill, refill_nc, refill_fc, and the lines
    found so far (last first) *)
Record rst := mk_rst { r_e : eols; r_curs : nat; r_beg : nat; r_entry : str; r_refill : str; r_nc : nat; r_fc : nat; r_lines : list str }.
(** one turn of the inner loop, mask_list.cpp:124-236, [buf] the bytes just read *)
Definition turn (up : str -> str) (buf : str) (s : rst) : res rst :=
  let lu := length buf in
  let* '(s, eol_len, eol_over) :=
    if nonempty (r_refill s) then
      let* '(e, k, m) := scan (r_e s) (skipn (r_nc s) (r_refill s)) in
      let nc := r_nc s + k in
      let '(nc, len, over) := match m with Some (len, over) => (S nc, len, over) | None => (nc, 0, 0) end in
      let entry := r_entry s ++ slice (r_refill s) (r_fc s) nc in
      if nc <? length (r_refill s)
      then Ok (mk_rst e (r_curs s) (r_beg s) entry (r_refill s) nc nc (r_lines s), len, over)
      else Ok (mk_rst e (r_curs s) (r_beg s) entry [] 0 0 (r_lines s), len, over)
    else
      let* '(e, k, m) := scan (r_e s) (skipn (r_curs s) buf) in
      let curs := r_curs s + k in
      let* '(curs, len, over) :=
        match m with
        | Some (len, over) =>
          let '(curs, over) := if over <=? curs then (curs - over, 0) else (curs, over) in
          if len =? 0 then Err Ebug else Ok (S curs, len, over)
        | None => Ok (curs, 0, 0)
        end in
      let entry := r_entry s ++ slice buf (r_beg s) curs in
      Ok (mk_rst e curs (if curs <? lu then curs else r_beg s) entry (r_refill s) (r_nc s) (r_fc s) (r_lines s), len, over) in
  if 0 <? eol_len then
    if length (r_entry s) <=? eol_len + eol_over then Err Ebug
    else
      let s :=
        if 0 <? eol_over then
          let '(refill, nc, fc) := if nonempty (r_refill s) then (skipn (r_fc s) (r_refill s), 0, 0) else (r_refill s, r_nc s, r_fc s) in
          mk_rst (r_e s) (r_curs s) (r_beg s) (drop_last eol_over (r_entry s))
                 (skipn (length (r_entry s) - eol_over) (r_entry s) ++ refill) nc fc (r_lines s)
        else s in
      let entry := up (drop_last eol_len (r_entry s)) in
      Ok (mk_rst (r_e s) (r_curs s) (r_beg s) [] (r_refill s) (r_nc s) (r_fc s) (if nonempty entry then entry :: r_lines s else r_lines s))
  else if 0 <? eol_over then Err Ebug
  else Ok s.
Fixpoint turns (fuel : nat) (up : str -> str) (buf : str) (s : rst) : res rst :=
  match fuel with
  | O => Err Fuel
  | S k =>
    let* s := turn up buf s in
    if (r_curs s <? length buf) || (r_nc s <? length (r_refill s)) then turns k up buf s else Ok s
  end.
(** the outer loop: [bufs] are the successive contents of the buffer (20480 bytes each but the last) *)
Fixpoint read_bufs (up : str -> str) (bufs : list str) (e : eols) (entry : str) (lines : list str) : res (list str) :=
  match bufs with
  | [] => Ok (rev (if nonempty entry then entry :: lines else lines))  (* the last line, not converted to upper case *)
  | buf :: r =>
    let* s := turns (2 * length buf + 2) up buf (mk_rst e 0 0 entry [] 0 0 lines) in
    read_bufs up r (r_e s) (r_entry s) (r_lines s)
  end.

(** ** mask_list *)
(** modified_lexicalorder_a_lessthan_b, mask_list.cpp:372-413; char is signed *)
Definition schar (c : N) : N := if (c <? 128)%N then (c + 128)%N else if (c <? 256)%N then (c - 128)%N else c.
Fixpoint lexle (a b : str) : bool :=
  match a, b with
  | [], _ => true
  | _ :: _, [] => false
  | x :: a', y :: b' =>
    if (x =? SLASH)%N then if (y =? SLASH)%N then lexle a' b' else true
    else if (y =? SLASH)%N then false
    else if (x =? y)%N then lexle a' b' else (schar x <? schar y)%N
  end.
(** list::sort (any sort gives the same list as the order is total and antisymmetric) and list::unique *)
Fixpoint insert (x : str) (l : list str) : list str :=
  match l with [] => [x] | y :: r => if lexle x y then x :: l else y :: insert x r end.
Definition sort_list (l : list str) : list str := fold_right insert [] l.
Fixpoint unique (l : list str) : list str :=
  match l with
  | x :: r => match r with
              | y :: _ => if str_eqb x y then unique r else x :: unique r
              | [] => [x]
              end
  | [] => []
  end.
Record mask_list := mk_ml { contenu : list str; case_s : bool; including : bool }.
(** completing relative paths, mask_list.cpp:262-296 *)
Fixpoint complete (prefix : path) (lines : list str) : res (list str) :=
  match lines with
  | [] => Ok []
  | l :: r =>
    match (let* p := path_make l false in if relative p then let* q := path_add prefix p in Ok (display q) else Ok l) with
    | Ok s => let* t := complete prefix r in Ok (s :: t)
    | Err _ => Err Erange
    end
  end.
Definition ROOT : str := [60; 82; 79; 79; 84; 62]%N.  (* <ROOT> *)
(** the constructor, mask_list.cpp:57-326, given the successive contents of the buffer *)
Definition ml_make (up : N -> N) (case_sensit : bool) (prefix : path) (include : bool) (eol_list : list str) (bufs : list str) : res mask_list :=
  let upper := if case_sensit then (fun s : str => s) else map up in
  let* l := eols_make eol_list in
  let* l := match eol_list with [] => eols_make [[10]; [13; 10]]%N | _ => Ok l end in
  let* prefix := if case_sensit then Ok prefix else path_make (map up (display prefix)) false in
  let* tmp := read_bufs upper bufs (l, 0) [] [] in
  let* root := path_make ROOT false in
  if relative prefix && negb (is_subdir_of prefix root) then Err Erange
  else
    let* ll := complete prefix tmp in
    Ok (mk_ml (unique (sort_list ll)) case_sensit include).
(** the binary search of is_covered, mask_list.cpp:344-351 *)
Fixpoint bsearch (fuel : nat) (l : list str) (target : str) (mn mx : nat) : nat * nat :=
  match fuel with
  | O => (mn, mx)
  | S k =>
    if 1 <? mx - mn then
      let tmp := Nat.div (mn + mx) 2 in
      if lexle (nth tmp l []) target then bsearch k l target tmp mx else bsearch k l target mn tmp
    else (mn, mx)
  end.
(** is_subdir_of(p, false), path.cpp:222-251 *)
Definition is_subdir_nocase (up : N -> N) (p q : path) : bool :=
  let me := map up (display p) in let you := map up (display q) in
  if (length you <=? length me)%nat then
    if str_eqb (firstn (length you) me) you then
      if (length you <? length me)%nat then
        ((1 <? length you)%nat && (nth (length you) me 0%N =? SLASH)%N) || ((length you =? 1)%nat && (hd 0%N you =? SLASH)%N)
      else true
    else false
  else false.
(** is_covered, mask_list.cpp:328-363 *)
Definition ml_covered (up : N -> N) (m : mask_list) (expression : str) : res bool :=
  match contenu m with
  | [] => Ok false
  | _ =>
    let l := contenu m in
    let target := if case_s m then expression else map up expression in
    let '(mn, mx) := bsearch (length l) l target 0 (length l - 1) in
    let mx := if (mn =? 0) && lexle target (nth mn l []) then mn else mx in
    if str_eqb (nth mx l []) target || str_eqb (nth mn l []) target then Ok true
    else if including m then
      let* p := path_make (nth mx l []) false in
      let* q := path_make expression false in
      Ok (if case_s m then is_subdir_of p q else is_subdir_nocase up p q)
    else Ok false
  end.
