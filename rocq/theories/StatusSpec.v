(** Specification of Status: every object is either OK or carries a code and a message. *)
From Verif Require Import Prelude StatusModel.

Definition absStatus := option (Z * list Z).
Definition absWorld := nat -> absStatus.
Definition aset (a : absWorld) (i : nat) (s : absStatus) : absWorld := fun k => if Nat.eqb k i then s else a k.

Definition astep (a : absWorld) (o : sop) : absWorld :=
  match o with
  | OpMake i c m => aset a i (Some (c, m))
  | OpFormat i c e => aset a i (Some (c, formatMsg e))
  | OpOk i => aset a i None
  | OpCopyCtor i j | OpCopy i j => aset a i (a j)
  | OpMoveCtor i j | OpMove i j => if Nat.eqb i j then a else aset (aset a i (a j)) j None
  end.
Definition arun (a : absWorld) (os : list sop) : absWorld := fold_left astep os a.

(** Operations a program can write: objects exist, codes fit the enum's 16 bits, messages have fewer than
    65536 bytes, and a constructor does not name its own object. *)
Definition op_ok (n : nat) (o : sop) : Prop :=
  match o with
  | OpMake i c m => (i < n)%nat /\ 0 < c < 65536 /\ Z.of_nat (length m) < 65536
  | OpFormat i c e => (i < n)%nat /\ 0 < c < 65536
  | OpOk i => (i < n)%nat
  | OpCopyCtor i j | OpMoveCtor i j => (i < n)%nat /\ (j < n)%nat /\ i <> j
  | OpCopy i j | OpMove i j => (i < n)%nat /\ (j < n)%nat
  end.
