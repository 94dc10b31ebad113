(** * What a database file must keep: used by C38. *)
From Verif Require Import Base InfinintModel CrcModel DatetimeModel PropDatetime HeaderModel DbModel DbMap DbFileModel.
Open Scope N_scope.

(** the same checksum, ready to be compared or extended from its first byte *)
Definition rewound (c : crc) : crc := mk_crc (cyclic c) 0.
Definition same_mod (s : statusp) : statusp := Sp (date s) (present s) (option_map rewound (base s)) (option_map rewound (result s)).
Fixpoint same_tree (t : tree) : tree :=
  let 'Tree n m c k := t in Tree n (map (fun p => (fst p, same_mod (snd p))) m) c (option_map (map same_tree) k).
(** the name of the root is not kept: it is always the same *)
Definition same_files (t : tree) : tree := let 'Tree _ m c k := same_tree t in Tree [60; 82; 79; 79; 84; 62] m c k.

(** what the program builds: names and strings come from C strings, archive numbers fit 16 bits and each occurs once *)
Definition no_nul (s : list N) : Prop := Forall (fun c => c <> 0) s.
Definition record_ok (m : amap statusp) (c : amap status) : Prop :=
  sorted m /\ sorted c /\ Forall (fun p => fst p < 65536 /\ PropDatetime.date (date (snd p))) m /\
  Forall (fun p => fst p < 65536 /\ PropDatetime.date (s_date (snd p))) c.
Fixpoint tree_ok (t : tree) : Prop :=
  let 'Tree n m c k := t in no_nul n /\ record_ok m c /\ match k with None => True | Some l => fold_right and True (map tree_ok l) end.
Definition arch_ok (a : arch) : Prop :=
  no_nul (a_path a) /\ no_nul (a_base a) /\ PropDatetime.date (a_root a) /\ N.of_nat (length (a_pass a)) < 2^64 /\ a_size a < 2^32 /\
  (a_crypto a = Knone -> a_pass a = [] /\ a_size a = 0).
Definition head_ok (h : dhead) : Prop := h_ver h = 7 /\ h_level h < 2^64 /\ h_bs h < 2^32.
(** the parameters of the cipher are not kept when there is none *)
Definition same_head (salt : list N) (h : dhead) : dhead :=
  match h_crypto h with
  | Knone => DH (h_ver h) (h_algo h) (h_level h) Knone Hnone 0 0 []
  | _ => DH (h_ver h) (h_algo h) (h_level h) (h_crypto h) (h_hash h) (h_count h) (h_bs h) salt
  end.
(** at least the unused archive number zero and less than 65534 numbers; credentials only in a ciphered database *)
Definition db_ok (db : dbase) : Prop :=
  head_ok (d_head db) /\ (0 < length (d_coord db))%nat /\ N.of_nat (length (d_coord db)) < 65534 /\ Forall arch_ok (d_coord db) /\
  (h_crypto (d_head db) = Knone -> Forall (fun a => a_crypto a = Knone) (d_coord db)) /\
  Forall no_nul (d_opts db) /\ no_nul (d_dar db).
(** cipher and compression: what is read is what was written *)
Definition transparent (wrap : dhead -> list N -> list N) (unwrap : dhead -> list N -> res (list N)) : Prop :=
  forall salt h b, head_ok h -> unwrap (same_head salt h) (wrap (set_salt salt h) b) = Ok b.
