(** * Model of the handling of feature data: cleanlab/internal/util.py:387-534 and 598-616 *)
From Coq Require Import List ZArith Bool Arith.
From Verif Require Import Base.
Import ListNotations.
Open Scope nat_scope.

Section Data.
Context {V : Type}.

(** a dense array: its shape and its entries in row-major order *)
Record array := Arr { shape : list nat; entries : list V }.
Definition size (s : list nat) : nat := fold_right Nat.mul 1%nat s.
(** scipy.sparse.csr_matrix *)
Record csr := Csr { c_data : list V; c_indices : list nat; c_indptr : list nat; c_shape : nat * nat }.
(** [a.nnz]: the last entry of indptr *)
Definition nnz (a : csr) : nat := last (c_indptr a) 0.

(** features in the formats the function distinguishes: arrays, pandas objects (index and rows), lists, sparse matrices, and torch datasets *)
Inductive features :=
| FArray (a : array)
| FPandas (index : list nat) (rows : list (list V))
| FList (l : list (list V))
| FSparse (m : csr)
| FTorch (rows : list (list V))
| FNone.                                                     (* Python's None *)

(** util.py:482-490 [csr_vstack] *)
Definition csr_vstack (a b : csr) : csr :=
  {| c_data := c_data a ++ c_data b;
     c_indices := c_indices a ++ c_indices b;
     c_indptr := c_indptr a ++ tl (map (fun p => p + nnz a) (c_indptr b))%nat;
     c_shape := (fst (c_shape a) + fst (c_shape b), snd (c_shape b))%nat |}.

(** [a[i]] of a dense array with at least one axis *)
Definition array_row (a : array) (i : nat) : res array :=
  match shape a with
  | [] => Raise IndexError
  | n :: s => if Nat.ltb i n then Ok (Arr s (firstn (size s) (skipn (i * size s) (entries a)))) else Raise IndexError
  end.
(** [np.atleast_2d] and [np.vstack([a, b])] *)
Definition atleast_2d (a : array) : array :=
  match shape a with
  | [] => Arr [1; 1]%nat (entries a)
  | [n] => Arr [1; n]%nat (entries a)
  | _ => a
  end.
Definition vstack (a b : array) : res array :=
  let a := atleast_2d a in
  let b := atleast_2d b in
  match shape a, shape b with
  | n :: s, m :: t => if list_eq_dec Nat.eq_dec s t then Ok (Arr (n + m :: s)%nat (entries a ++ entries b)) else Raise ValueError
  | _, _ => Raise ValueError
  end.
(** [m[i]] of a sparse matrix: one row, as a sparse matrix *)
Definition csr_row (m : csr) (i : nat) : res csr :=
  if Nat.ltb i (fst (c_shape m)) then
    let lo := nth i (c_indptr m) 0%nat in
    let hi := nth (S i) (c_indptr m) 0%nat in
    Ok {| c_data := firstn (hi - lo) (skipn lo (c_data m)); c_indices := firstn (hi - lo) (skipn lo (c_indices m));
          c_indptr := [0; hi - lo]%nat; c_shape := (1, snd (c_shape m))%nat |}
  else Raise IndexError.
Definition nth_row (rows : list (list V)) (i : nat) : res (list V) :=
  match nth_error rows i with Some r => Ok r | None => Raise IndexError end.

(** util.py:493-516 [append_extra_datapoint]: list.append returns None; exceptions of the last branch become a TypeError *)
Definition append_extra_datapoint (to_data from_data : features) (index : nat) : res features :=
  match to_data, from_data with
  | FArray a, FArray b => do r <- array_row b index ; do s <- vstack a r ; Ok (FArray s)
  | FPandas ix rows, FPandas ix' rows' => do r <- nth_row rows' index ; Ok (FPandas (seq 0 (length rows + 1)) (rows ++ [r]))
  | FList l, FList l' => match nth_row l' index with Ok _ => Ok FNone | Raise _ => Raise TypeError end
  | FSparse a, FSparse b => match csr_row b index with Ok r => Ok (FSparse (csr_vstack a r)) | Raise _ => Raise TypeError end
  | FTorch _, FTorch _ => Raise TypeError
  | FNone, FNone => Raise TypeError
  | _, _ => Raise ValueError
  end.

(** util.py:402-434 [train_val_split] of the features: [X[idx]], [X.iloc[idx]] or a torch Subset *)
Definition take_rows (X : features) (idx : list nat) : res features :=
  match X with
  | FArray a => match shape a with
                | [] => Raise ValueError
                | n :: s => do rs <- rmap (array_row a) idx ; Ok (FArray (Arr (length idx :: s) (concat (map entries rs))))
                end
  | FPandas ix rows => do rs <- rmap (nth_row rows) idx ; Ok (FPandas (map (fun i => nth i ix 0%nat) idx) rs)
  | FTorch rows => Ok (FTorch (map (fun i => nth i rows []) idx))
  | FSparse m => do rs <- rmap (csr_row m) idx ;
                 Ok (FSparse (fold_left csr_vstack rs {| c_data := []; c_indices := []; c_indptr := [0%nat]; c_shape := (0%nat, snd (c_shape m)) |}))
  | FList _ | FNone => Raise ValueError
  end.
Definition train_val_split (X : features) (train_idx holdout_idx : list nat) : res (features * features) :=
  let guard r := match r with Ok x => Ok x | Raise _ => match X with FPandas _ _ => r | _ => Raise ValueError end end in
  do a <- guard (take_rows X train_idx) ;
  do b <- guard (take_rows X holdout_idx) ;
  Ok (a, b).

(** util.py:598-616 [force_two_dimensions] of an array: [X.reshape((len(X), -1))] *)
Definition force_two_dimensions (a : array) : res array :=
  match shape a with
  | n :: s => if Nat.ltb 2 (length (shape a))
              then if Nat.eqb n 0 then Raise ValueError else Ok (Arr [n; length (entries a) / n]%nat (entries a))
              else Ok a
  | [] => Ok a
  end.
End Data.

(** [astype] to a signed integer of [bits] bits *)
Definition wrap (bits : Z) (z : Z) : Z := ((z + 2 ^ (bits - 1)) mod 2 ^ bits - 2 ^ (bits - 1))%Z.
(** util.py:387-399 [compress_int_array] of a numpy array of 64-bit integers *)
Definition compress_int_array (l : list Z) (num_possible_values : Z) : list Z :=
  if (num_possible_values <? 2 ^ 15 - 1)%Z then map (wrap 16) l
  else if (num_possible_values <? 2 ^ 31 - 1)%Z then map (wrap 32) l
  else l.
