(** Copying the data file of a database, as a backup program does: not code of the project. *)
From Verif Require Import Model.Bytes Model.Err Model.IO.

(** Reads pieces of the given lengths, one after the other. *)
Fixpoint read_pieces (off : N) (l : list N) : prog (res bytes) :=
  match l with
  | [] => pret []
  | n :: l' => d <- p_read FDat off n ;; r <- read_pieces (off + n) l' ;; pret (d ++ r)
  end.

(** The copy: the size of the file is taken, then that many bytes are read in pieces, which [cut]
    gives. *)
Definition copy (cut : N -> list N) : prog (res bytes) :=
  p_open FDat ;;;
  n <- p_size FDat ;;
  read_pieces 0 (cut n).

(** The pieces make up the whole. *)
Definition whole_cut (cut : N -> list N) : Prop := forall n, fold_right N.add 0 (cut n) = n.
