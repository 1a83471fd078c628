(** Position.v -- model of src/position.rs. [usize] is [nat]; subtractions are
    proved not to underflow in the position theorems. *)
From Verif Require Import Base.

(** src/position.rs:10-14 *)
Record position := mkPos { p_start : nat; p_width : nat }.
Definition p_end (p : position) : nat := p_start p + p_width p.

(** src/position.rs:40-47 [struct Positioned] *)
Record positioned (A : Type) := mkPositioned { pd_value : A; pd_pos : position }.
Arguments mkPositioned {A}. Arguments pd_value {A}. Arguments pd_pos {A}.

(** src/position.rs:17-24 [Position::from_span] *)
Definition from_span (p1 p2 : position) : position :=
  let start := Nat.min (p_start p1) (p_start p2) in
  let stop := Nat.max (p_start p1 + p_width p1) (p_start p2 + p_width p2) in
  mkPos start (stop - start).

(** [slice::sort_unstable] on a vector of usize: insertion sort (any sort gives the same vector). *)
Fixpoint insert_nat (x : nat) (l : list nat) : list nat :=
  match l with
  | [] => [x]
  | y :: l' => if Nat.leb x y then x :: l else y :: insert_nat x l'
  end.
Definition sort_nat (l : list nat) : list nat := fold_right insert_nat [] l.

(** src/position.rs:26-37 [Position::from_between]; indices 1 and 2 of a
    4-element vector always exist. *)
Definition from_between (p1 p2 : position) : position :=
  let points := sort_nat [p_start p1; p_start p1 + p_width p1;
                          p_start p2; p_start p2 + p_width p2] in
  let start := nth 1 points 0 in
  let width := nth 2 points 0 - start in
  mkPos start width.

(** src/position.rs:90-95 [Positioned::new_raw] *)
Definition new_raw {A} (v : A) (start width : nat) : positioned A :=
  mkPositioned v (mkPos start width).

(** src/position.rs:111-120 [Positioned::map] *)
Definition pmap {A B} (f : A -> B) (x : positioned A) : positioned B :=
  mkPositioned (f (pd_value x)) (pd_pos x).

(** [Iterator::position(|c| !c.is_ascii_whitespace())] *)
Fixpoint find_non_ws (s : str) : option nat :=
  match s with
  | [] => None
  | c :: s' => if is_ascii_whitespace c then option_map S (find_non_ws s') else Some 0
  end.

(** src/position.rs:123-146 [Positioned::<String>::trim] *)
Definition ptrim {E} (x : positioned str) : outcome E (positioned str) :=
  match find_non_ws (pd_value x) with
  | None => Ok (mkPositioned [] (mkPos (p_start (pd_pos x)) 0))
  | Some start_trim =>
      match find_non_ws (rev (pd_value x)) with
      | None => Panic UnwrapFailed (* line 140: [.unwrap()] *)
      | Some back =>
          let stop_trim := length (pd_value x) - back in
          let v := firstn (stop_trim - start_trim) (skipn start_trim (pd_value x)) in
          Ok (mkPositioned v (mkPos (p_start (pd_pos x) + start_trim) (length v)))
      end
  end.

(** src/position.rs:148-157 [struct MaybePositioned] *)
Record maybe_positioned (A : Type) := mkMP { mp_value : A; mp_pos : option position }.
Arguments mkMP {A}. Arguments mp_value {A}. Arguments mp_pos {A}.
