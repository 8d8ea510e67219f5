(** Specification vocabulary: splitting a sequence by stages. *)
From Verif Require Import Base Stage.
From Coq Require Import List ZArith Lia Bool.
Import ListNotations.

Section Spec.
Context {T K : Type} (key : T -> K) (stages : list K).

(** The keys follow the stage order: they sit at non-decreasing positions of the list. *)
Fixpoint non_decreasing (l : list nat) : Prop :=
  match l with
  | a :: ((b :: _) as r) => (a <= b)%nat /\ non_decreasing r
  | _ => True
  end.
Definition follows (keys : list K) : Prop :=
  exists positions, non_decreasing positions /\ Forall2 (fun p k => nth_error stages p = Some k) positions keys.
(** What may form one group: keys in stage order, or one key that is no stage. *)
Definition may_group (keys : list K) : Prop :=
  follows keys \/ exists k, ~ In k stages /\ Forall (eq k) keys.

(** Consecutive groups cannot be extended by the next element. *)
Fixpoint maximal (gs : list (list T)) : Prop :=
  match gs with
  | g :: (((y :: _) :: _) as r) => ~ may_group (map key (g ++ [y])) /\ maximal r
  | _ => True
  end.
Definition stage_partition (xs : list T) (gs : list (list T)) : Prop :=
  concat gs = xs /\ Forall (fun g => g <> []) gs /\ Forall (fun g => may_group (map key g)) gs /\ maximal gs.

(** The key handed out with a group: the stages from the first occurrence of the key of
    its first element on, or that key itself. *)
Definition group_key (g : list T) (t : target K) : Prop :=
  match g with
  | [] => False
  | x :: _ =>
    (exists before rest, stages = before ++ key x :: rest /\ ~ In (key x) before /\ t = TStages (key x :: rest))
    \/ (~ In (key x) stages /\ t = TUnknown (Some (key x)))
  end.
End Spec.

(** ** The ideal behaviour over the groups of a partition: [next] opens the next group and
    drops what is left of the present one; pulling from the open group delivers its next
    element; any other group is at its end. *)
Section Ideal.
Context {T K : Type}.
Inductive answer := Stop | Opened | Element (x : T) | End.
Record ideal := mkIdeal { todo : list (list T); rest : list T; open : option nat; opened : nat }.
Definition ideal_start (gs : list (list T)) : ideal := mkIdeal gs [] None 0.
Definition ideal_step (s : ideal) (o : op) : answer * ideal :=
  match o with
  | Next => match todo s with
            | [] => (Stop, mkIdeal [] [] None (opened s))
            | g :: gs => (Opened, mkIdeal gs g (Some (opened s)) (S (opened s)))
            end
  | Pull i => if match open s with Some j => Nat.eqb i j | None => false end then
                match rest s with
                | x :: r => (Element x, mkIdeal (todo s) r (open s) (opened s))
                | [] => (End, s)
                end
              else (End, s)
  end.
Fixpoint ideal_run (s : ideal) (ops : list op) : list answer :=
  match ops with [] => [] | o :: r => let (x, s') := ideal_step s o in x :: ideal_run s' r end.
(** What a caller observes, apart from the keys. *)
Definition observe (o : out T K) : answer :=
  match o with OStop => Stop | OGroup _ => Opened | OElem x => Element x | OEnd => End end.

(** Schedules that pull only from the group opened last. [n]: groups opened so far. *)
Fixpoint latest_only (n : nat) (ops : list op) : Prop :=
  match ops with
  | [] => True
  | Next :: r => latest_only (S n) r
  | Pull i :: r => S i = n /\ latest_only n r
  end.
End Ideal.
Arguments answer : clear implicits. Arguments ideal : clear implicits.

(** What was delivered, and sequences obtained by leaving elements out. *)
Definition delivered {T} (answers : list (answer T)) : list T :=
  flat_map (fun a => match a with Element x => [x] | _ => [] end) answers.
Inductive subsequence {T} : list T -> list T -> Prop :=
| Sub_end : subsequence [] []
| Sub_keep : forall x a b, subsequence a b -> subsequence (x :: a) (x :: b)
| Sub_skip : forall x a b, subsequence a b -> subsequence a (x :: b).
