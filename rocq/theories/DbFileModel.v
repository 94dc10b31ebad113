(** * Model of the file of a dar_manager database: database_header.cpp (header), i_database.cpp:95-286 and 999-1022 (build, dump),
    data_tree.cpp:57-347 and data_dir.cpp:59-131, 580-636 (records), archive_num.cpp.

    The layers between the header and the rest (cipher, compressor) are the functions [wrap] and [unwrap] of the theorems. Integers are N
    (C03). Allocation failures are left out. Where the code ignores the result of a short read of a variable that was not set, the outcome is [UB]. *)
From Verif Require Import Base InfinintModel DatetimeModel CrcModel HeaderModel DbModel.
Open Scope N_scope.

(** crc::dump / create_crc_from_file(f, false); a byte read without check *)
Definition crc_get (f : list N) : res (crc * list N) := crc_read f false.
Definition byte_get (f : list N) : res (N * list N) := match read1 f with Some x => Ok x | None => Err UB end.

(** ** archive_num.cpp:49-66 *)
Definition num_put (n : N) : list N := [n / 256; n mod 256].
Definition num_get (f : list N) : res (N * list N) := match f with a :: b :: f => Ok (a * 256 + b, f) | _ => Err UB end.
(** archive_num(U_16) and operator =, archive_num.hpp:49-82, of a wider integer: wrapped, then refused from 65534 on *)
Definition num_of (n : N) : res N := let v := n mod 65536 in if 65534 <=? v then Err Ebug else Ok v.

(** ** records of files *)
(** status::dump, data_tree.cpp:57-86 *)
Definition etat_char (e : etat) : N :=
  match e with et_saved => 83 | et_patch => 79 | et_patch_unusable => 85 | et_inode => 73 | et_present => 80 | et_removed => 82 | et_absent => 65 end.
Definition status_dump (d : datetime) (e : etat) : res (list N) := let* b := dt_dump d in Ok (b ++ [etat_char e]).
(** db2archive_version, datetime.cpp:468-475 *)
Definition db_arch (ver : N) : N := if 3 <? ver then 9 else 8.
(** status::read, data_tree.cpp:88-122 *)
Definition status_read (ver : N) (f : list N) : res (datetime * etat * list N) :=
  let* '(d, f) := dt_read (db_arch ver) f in
  let* '(c, f) := match read1 f with Some x => Ok x | None => Err Erange end in
  let* e := if c =? 83 then Ok et_saved else if c =? 80 then Ok et_present else if c =? 82 then Ok et_removed else if c =? 73 then Ok et_inode
            else if c =? 65 then Ok et_absent else if c =? 79 then Ok et_patch else if c =? 85 then Ok et_patch_unusable else Err Erange in
  Ok (d, e, f).
(** status_plus::dump and read, data_tree.cpp:156-202; data_tree.hpp:168-169 *)
Definition FLAG_ME : N := 1.
Definition FLAG_REF : N := 2.
Definition opt_crc (o : option crc) : list N := match o with Some c => crc_dump c | None => [] end.
Definition plus_dump (s : statusp) : res (list N) :=
  let flag := N.lor (match base s with Some _ => FLAG_ME | None => 0 end) (match result s with Some _ => FLAG_REF | None => 0 end) in
  let* b := status_dump (date s) (present s) in Ok (b ++ [flag] ++ opt_crc (base s) ++ opt_crc (result s)).
Definition plus_read (ver : N) (f : list N) : res (statusp * list N) :=
  let* '(d, e, f) := status_read ver f in
  if ver <=? 4 then Ok (Sp d e None None, f) else
  let* '(flag, f) := byte_get f in
  let* '(b, f) := if negb (N.land flag FLAG_ME =? 0) then let* '(k, f) := crc_get f in Ok (Some k, f) else Ok (None, f) in
  let* '(r, f) := if negb (N.land flag FLAG_REF =? 0) then let* '(k, f) := crc_get f in Ok (Some k, f) else Ok (None, f) in
  Ok (Sp d e b r, f).
(** the value read for one archive, data_tree.cpp:262-281 and 291-309: an integer alone in version 1 *)
Definition mod_read (ver : N) (f : list N) : res (statusp * list N) :=
  if ver =? 0 then Err Ebug else
  if ver =? 1 then let* '(n, f) := readN f in Ok (Sp (dt_seconds n) et_saved None None, f) else plus_read ver f.
Definition chg_read (ver : N) (f : list N) : res (status * list N) :=
  if ver =? 0 then Err Ebug else
  if ver =? 1 then let* '(n, f) := readN f in Ok (St (dt_seconds n) et_saved, f)
  else let* '(d, e, f) := status_read ver f in Ok (St d e, f).
(** the loops over a map; [k] elements remain *)
Fixpoint map_dump {A} (wr : A -> res (list N)) (m : amap A) : res (list N) :=
  match m with [] => Ok [] | (k, v) :: r => let* b := wr v in let* c := map_dump wr r in Ok (num_put k ++ b ++ c) end.
Fixpoint map_read {A} (rd : list N -> res (A * list N)) (n : nat) (k : N) (m : amap A) (f : list N) : res (amap A * list N) :=
  match n with
  | O => Err Fuel
  | S n => if k =? 0 then Ok (m, f) else
    let* '(key, f) := num_get f in
    let* '(v, f) := rd f in
    map_read rd n (k - 1) (mset key v m) f
  end.
(** data_tree::dump, data_tree.cpp:316-347 *)
Definition record_dump (sign : N) (name : list N) (mods : amap statusp) (chg : amap status) : res (list N) :=
  let* a := map_dump plus_dump mods in
  let* b := map_dump (fun s => status_dump (s_date s) (s_present s)) chg in
  Ok (sign :: write_string name ++ dumpN (N.of_nat (length mods)) ++ a ++ dumpN (N.of_nat (length chg)) ++ b).
(** data_tree::data_tree(f, version), data_tree.cpp:246-314 *)
Definition fuel_of (f : list N) : nat := S (length f).
Definition record_read (ver : N) (f : list N) : res (list N * amap statusp * amap status * list N) :=
  let* '(name, f) := read_string f in
  let* '(k, f) := readN f in
  let* '(m, f) := map_read (mod_read ver) (fuel_of f) k [] f in
  let* '(k, f) := readN f in
  let* '(c, f) := map_read (chg_read ver) (fuel_of f) k [] f in
  Ok (name, m, c, f).
(** data_dir::dump, data_dir.cpp:116-131 *)
Fixpoint tree_dump (t : tree) : res (list N) :=
  match t with
  | Tree name mods chg None => record_dump 116 name mods chg
  | Tree name mods chg (Some l) =>
    let* a := record_dump 100 name mods chg in
    let* b := (fix go l := match l with [] => Ok [] | x :: r => let* a := tree_dump x in let* b := go r in Ok (a ++ b) end) l in
    Ok (a ++ dumpN (N.of_nat (length l)) ++ b)
  end.
(** read_next_in_list_from_file ([None]: end of file) and data_dir::data_dir(f, version), data_dir.cpp:615-636 and 59-94 *)
Fixpoint tree_read (ver : N) (n : nat) (f : list N) {struct n} : res (option tree * list N) :=
  match n with
  | O => Err Fuel
  | S n =>
    match read1 f with
    | None => Ok (None, f)
    | Some (s, f) =>
      if s =? 116 then let* '(name, m, c, f) := record_read ver f in Ok (Some (Tree name m c None), f)
      else if s =? 100 then
        let* '(name, m, c, f) := record_read ver f in
        let* '(k, f) := readN f in
        let* '(l, f) := kids_read ver n k f in
        Ok (Some (Tree name m c (Some l)), f)
      else Err Erange
    end
  end
with kids_read (ver : N) (n : nat) (k : N) (f : list N) {struct n} : res (list tree * list N) :=
  match n with
  | O => Err Fuel
  | S n =>
    if k =? 0 then Ok ([], f) else
    let* '(x, f) := tree_read ver n f in
    match x with
    | None => Err Erange
    | Some t => let* '(l, f) := kids_read ver n (k - 1) f in Ok (t :: l, f)
    end
  end.

(** ** header, database_header.cpp:81-217 *)
Record dhead := DH { h_ver : N; h_algo : compression; h_level : N; h_crypto : crypto; h_hash : hash; h_count : N; h_bs : N; h_salt : list N }.
Definition DB_VERSION : N := 7.                              (* database_header.cpp:68 *)
Definition SUPPORTED : aver := mk_aver 12 0.                 (* archive_aux.cpp:56 *)
Definition is_gzip (c : compression) : bool := match c with Cgzip => true | _ => false end.
Definition head_write (h : dhead) : list N :=
  let comp := negb (is_gzip (h_algo h) && (h_level h =? 9)) in
  let ciph := negb (is_knone (h_crypto h)) in
  [h_ver h; N.lor (if comp then 1 else 0) (if ciph then 2 else 0)] ++
  (if comp then comp_char (h_algo h) :: dumpN (h_level h) else []) ++
  (if ciph then av_dump SUPPORTED ++ [crypto_char (h_crypto h); hash_char (h_hash h)] ++ dumpN (h_count h) ++ dumpN (h_bs h) ++
     dumpN (N.of_nat (length (h_salt h))) ++ h_salt h else []).
(** unstack into a variable of [w] bits set to zero: its value and what is left (C04) *)
Definition unstack0 (w n : N) : N * N := let m := 2 ^ w - 1 in (N.min n m, n - N.min n m).
Definition head_read (f : list N) : res (dhead * list N) :=
  let* '(ver, f) := byte_get f in
  if DB_VERSION <? ver then Err Erange else
  let* '(opt, f) := byte_get f in
  if negb (N.land opt 0x80 =? 0) then Err Erange else
  let* '(algo, level, f) :=
    if negb (N.land opt 1 =? 0) then
      let* '(c, f) := byte_get f in
      let* algo := char_comp c in
      if 5 <? ver then let* '(n, f) := readN f in Ok (algo, fst (unstack0 64 n), f)
      else Ok (algo, 9, f)       (* the value set by clear(), :86 *)
    else Ok (Cgzip, 9, f) in
  if negb (N.land opt 2 =? 0) then
    let* '(_, f) := av_read (mk_aver 0 0) f in
    let* '(c, f) := byte_get f in
    let* sym := char_crypto c in
    let* '(c, f) := byte_get f in
    let* ha := char_hash c in
    let* '(count, f) := readN f in
    let* '(n, f) := readN f in
    let '(bs, more) := unstack0 32 n in
    if negb (more =? 0) then Err Erange else
    let* '(n, f) := readN f in
    let* '(salt, f) := read_string_size (S (S (length f))) n f in
    Ok (DH ver algo level sym ha count bs salt, f)
  else Ok (DH ver algo level Knone Hnone 0 0 [], f).

(** ** the database, i_database.hpp:226-243 *)
Record arch := Ar { a_path : list N; a_base : list N; a_root : datetime; a_crypto : crypto; a_pass : list N; a_size : N }.
Record dbase := DB { d_head : dhead; d_coord : list arch; d_opts : list (list N); d_dar : list N; d_files : option tree; d_raw : option (list N) }.

(** bytes written before an exception, and the outcome *)
Definition out : Type := list N * res unit.
Definition put (b : list N) : out := (b, Ok tt).
Definition fail (e : exn) : out := ([], Err e).
Definition lift (r : res (list N)) : out := match r with Ok b => put b | Err e => fail e end.
Definition seqw (a b : out) : out := match a with (x, Ok _) => (x ++ fst b, snd b) | (x, Err e) => (x, Err e) end.
Notation "a ;; b" := (seqw a b) (at level 61, right associativity).
(** the loop of dump, i_database.cpp:231-265 *)
Definition coord_dump (clear : bool) (a : arch) : out :=
  put (write_string (a_path a)) ;; put (write_string (a_base a)) ;; lift (dt_dump (a_root a)) ;; put [crypto_char (a_crypto a)] ;;
  if is_knone (a_crypto a) then put [] else
  if clear then fail Erange else put (dumpN (N.of_nat (length (a_pass a))) ++ a_pass a ++ dumpN (a_size a)).
Fixpoint coords_dump (clear : bool) (l : list arch) : out :=
  match l with [] => put [] | a :: r => coord_dump clear a ;; coords_dump clear r end.
(** tools_write_vector, tools.cpp:681-689 *)
Definition vec_write (l : list (list N)) : list N := dumpN (N.of_nat (length l)) ++ concat (map write_string l).
(** i_database::dump after the header, i_database.cpp:227-277 *)
Definition body_dump (db : dbase) : out :=
  match num_of (N.of_nat (length (d_coord db))) with
  | Err e => fail e
  | Ok n =>
    put (dumpN n) ;; coords_dump (is_knone (h_crypto (d_head db))) (firstn (N.to_nat n) (d_coord db)) ;;
    put (vec_write (d_opts db)) ;; put (write_string (d_dar db)) ;;
    match d_files db, d_raw db with
    | Some t, _ => lift (tree_dump t)
    | None, Some b => put b
    | None, None => fail Ebug
    end
  end.
(** i_database::dump and database_header_create, i_database.cpp:213-286, database_header.cpp:278-355: [old] is the file of that name. It is created
    or truncated first. [salt]: the salt drawn by the cipher. *)
Definition set_salt (s : list N) (h : dhead) : dhead :=
  DH (h_ver h) (h_algo h) (h_level h) (h_crypto h) (h_hash h) (h_count h) (h_bs h) (if is_knone (h_crypto h) then [] else s).
Definition db_save (wrap : dhead -> list N -> list N) (salt : list N) (overwrite : bool) (old : option (list N)) (db : dbase) : option (list N) * res unit :=
  match d_files db, d_raw db with
  | None, None => (old, Err Erange)
  | _, _ =>
    match old, overwrite with
    | Some _, false => (old, Err Erange)
    | _, _ =>
      let h := set_salt salt (d_head db) in
      let '(b, r) := body_dump db in
      (Some (head_write h ++ wrap h b), r)
    end
  end.

(** one archive, i_database.cpp:115-163 *)
Definition coord_read (ver : N) (f : list N) : res (arch * list N) :=
  let* '(p, f) := read_string f in
  let* '(b, f) := read_string f in
  let* '(d, f) := if 3 <=? ver then dt_read (db_arch ver) f else Ok (date0, f) in
  let* '(sym, f) := if 7 <=? ver then let* '(c, f) := byte_get f in let* s := char_crypto c in Ok (s, f) else Ok (Knone, f) in
  if is_knone sym then Ok (Ar p b d Knone [] 0, f) else
  let* '(n, f) := readN f in
  let '(ks, more) := unstack0 64 n in
  if negb (more =? 0) then Err Erange else
  let* '(pass, f) := if N.of_nat (length f) <? ks then Err UB else Ok (firstn (N.to_nat ks) f, skipn (N.to_nat ks) f) in
  let* '(n, f) := readN f in
  let '(sz, more) := unstack0 32 n in
  if negb (more =? 0) then Err Erange else
  Ok (Ar p b d sym pass sz, f).
(** "while(!tmp.is_zero()) { ...; --tmp; }" *)
Fixpoint rep_read {A} (rd : list N -> res (A * list N)) (n : nat) (k : N) (f : list N) : res (list A * list N) :=
  match n with
  | O => Err Fuel
  | S n => if k =? 0 then Ok ([], f) else
    let* '(x, f) := rd f in
    let* '(l, f) := rep_read rd n (k - 1) f in
    Ok (x :: l, f)
  end.
(** tools_read_vector, tools.cpp:691-703 *)
Definition vec_read (f : list N) : res (list (list N) * list N) :=
  let* '(k, f) := readN f in rep_read read_string (fuel_of f) k f.
Definition PSEUDO_ROOT : list N := [60; 82; 79; 79; 84; 62].
Definition set_root (t : tree) : tree := let 'Tree _ m c k := t in Tree PSEUDO_ROOT m c k.
Definition tree_fuel (f : list N) : nat := 2 * length f + 2.
(** i_database::build, i_database.cpp:95-201; file2storage (:999-1018) takes all that remains *)
Definition body_read (h : dhead) (partial read_only : bool) (f : list N) : res dbase :=
  let ver := h_ver h in
  let* '(k, f) := readN f in
  let* '(co, f) := rep_read (coord_read ver) (fuel_of f) k f in
  if (match co with [] => true | _ => false end) then Err Erange else
  let* '(opts, f) := vec_read f in
  let* '(dar, f) := read_string f in
  let partial := if ver <? DB_VERSION then false else partial in
  if negb partial then
    let* '(t, _) := tree_read ver (tree_fuel f) f in
    match t with
    | Some (Tree n m c (Some l)) => Ok (DB h co opts dar (Some (set_root (Tree n m c (Some l)))) None)
    | _ => Err Ememory
    end
  else if negb read_only then Ok (DB h co opts dar None (Some f)) else Ok (DB h co opts dar None None).
(** i_database(dialog, base, opt), i_database.cpp:72-93 and database_header_open, database_header.cpp:357-450 *)
Definition db_open (unwrap : dhead -> list N -> res (list N)) (partial read_only : bool) (f : list N) : res dbase :=
  let* '(h, f) := head_read f in
  let* b := unwrap h f in
  body_read h partial read_only b.

(** add_archive, i_database.cpp:304-320, as far as the list of archives is concerned (the files: DbModel) *)
Definition add_coord (a : arch) (db : dbase) : res dbase :=
  let* _ := num_of (N.of_nat (length (d_coord db))) in
  if (match d_files db with None => true | _ => false end) then Err Ebug else
  if (match a_base a with [] => true | _ => false end) then Err Erange else
  Ok (DB (d_head db) (d_coord db ++ [a]) (d_opts db) (d_dar db) (d_files db) (d_raw db)).
