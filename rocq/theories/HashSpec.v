(** * HashSpec: what is expected of a slice and of its hash file

    Independent of the model: only traces of requests and answers, bytes, and the format
    md5sum(1) and its kin read back. *)
From Coq Require Import List.
From Verif Require Import Base.
Local Open Scope nat_scope.

(** The bytes of all the write requests, in order. *)
Fixpoint all_bytes (reqs : list (list byte)) : list byte :=
  match reqs with [] => [] | d :: r => d ++ all_bytes r end.

Definition prefix (p l : list byte) : Prop := exists q, p ++ q = l.

(** A hexadecimal digit, lower case as md5sum prints it, and its value. *)
Definition hex_digit (c v : N) : Prop :=
  (v < 10 /\ c = 48 + v)%N \/ (10 <= v < 16 /\ c = 97 + (v - 10))%N.

(** Two hexadecimal digits per byte, most significant first. *)
Inductive hex_of : list byte -> list byte -> Prop :=
| hex_nil : hex_of [] []
| hex_cons : forall c1 c2 v1 v2 r bytes,
    hex_digit c1 v1 -> hex_digit c2 v2 -> hex_of r bytes ->
    hex_of (c1 :: c2 :: r) ((16 * v1 + v2)%N :: bytes).

(** A line of a file given to md5sum -c: the digest in hexadecimal, two spaces, the name of
    the file, a newline.  The name is what stands between the two spaces and the newline. *)
Definition check_line (line dig nm : list byte) : Prop :=
  exists hx, hex_of hx dig /\ line = hx ++ [32; 32]%N ++ nm ++ [10]%N.

(** What md5sum -c does with such a file: it reads the only line, looks up the file it
    names, and compares the digest of that file with the one of the line. *)
Definition check_ok (digest : list byte -> list byte) (files : list byte -> option (list byte)) (hashfile : list byte) : Prop :=
  exists dig nm c, check_line hashfile dig nm /\ ~ In 10%N nm /\ files nm = Some c /\ digest c = dig.

(** ** What a file holds after a history of write requests *)

(** Answer to a write request: done, refused by the user at the "no space left" question,
    or failed for another reason. *)
Inductive outcome := Done | Refused | Failed.

(** [stored dead h c]: after the requests [h] with their answers the file holds [c].  A
    request that is done adds its bytes, one that is refused or fails adds a prefix of
    them; once the user has refused ([dead]) nothing is added any more, although the
    requests are still answered. *)
Inductive stored : bool -> list (list byte * outcome) -> list byte -> Prop :=
| st_nil : forall dead, stored dead [] []
| st_done : forall d r c, stored false r c -> stored false ((d, Done) :: r) (d ++ c)
| st_dead : forall d r c, stored true r c -> stored true ((d, Done) :: r) c
| st_refused : forall d p r c, prefix p d -> stored true r c -> stored false ((d, Refused) :: r) (p ++ c)
| st_failed : forall d p r c, prefix p d -> stored false r c -> stored false ((d, Failed) :: r) (p ++ c)
| st_failed_dead : forall d r c, stored true r c -> stored true ((d, Failed) :: r) c.
