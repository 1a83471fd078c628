(** SpecTerminal.v -- a terminal with a size: what the commands of the program do to its screen. *)
From Verif Require Import Base Position Num TokenTypes Errors Token SavedData Variables InputHistory
  SyntaxTree Commands Calculate Editor SpecEditor SpecSession.
From Coq Require Import String.
Local Open Scope nat_scope.
Local Open Scope list_scope.

(** The width; the rows that have scrolled off the top, oldest first; the visible rows, top first (their number is the
    height; cells beyond the end of a row's text are blank); the cursor's row, and its column, which is the width
    itself right after a character was written into the last column (the next one goes to the next row). *)
Record grid := mkGrid { g_width : nat; g_gone : list str; g_rows : list str; g_row : nat; g_col : nat }.
Definition g_height (g : grid) : nat := List.length (g_rows g).
Definition set_row (g : grid) (s : str) : list str := firstn (g_row g) (g_rows g) ++ [s] ++ skipn (S (g_row g)) (g_rows g).
Definition row_text (g : grid) : str := nth (g_row g) (g_rows g) [].

(** Down one row; at the bottom the screen scrolls. *)
Definition line_feed (g : grid) : grid :=
  if Nat.ltb (S (g_row g)) (g_height g) then mkGrid (g_width g) (g_gone g) (g_rows g) (S (g_row g)) (g_col g)
  else mkGrid (g_width g) (g_gone g ++ firstn 1 (g_rows g)) (skipn 1 (g_rows g) ++ [[]]) (g_row g) (g_col g).
(** A character is written at the cursor; past the last column it goes to the beginning of the next row. *)
Definition put (g : grid) (c : char) : grid :=
  if N.eqb c c_newline then line_feed g
  else
    let g := if Nat.ltb (g_col g) (g_width g) then g
             else let g' := line_feed g in mkGrid (g_width g') (g_gone g') (g_rows g') (g_row g') 0 in
    mkGrid (g_width g) (g_gone g) (set_row g (write (row_text g) (g_col g) [c])) (g_row g) (S (g_col g)).
(** The commands.  Moving the cursor -- also "to the next line" (CSI E) -- never scrolls: it stops at the edge. *)
Definition on_grid (g : grid) (c : tcmd) : grid :=
  match c with
  | Print t => fold_left put t g
  | MoveTo col row => mkGrid (g_width g) (g_gone g) (g_rows g) (Nat.min row (g_height g - 1)) (Nat.min col (g_width g - 1))
  | MoveToColumn col => mkGrid (g_width g) (g_gone g) (g_rows g) (g_row g) (Nat.min col (g_width g - 1))
  | MoveToNextLine n => mkGrid (g_width g) (g_gone g) (g_rows g) (Nat.min (g_row g + n) (g_height g - 1)) 0
  | ClearCurrentLine => mkGrid (g_width g) (g_gone g) (set_row g []) (g_row g) (g_col g)
  | ClearFromCursorDown =>
      mkGrid (g_width g) (g_gone g)
             (firstn (g_row g) (g_rows g) ++ [firstn (g_col g) (row_text g)] ++ repeat [] (g_height g - S (g_row g)))
             (g_row g) (g_col g)
  end.
Definition grid_after (cmds : list tcmd) (g : grid) : grid := fold_left on_grid cmds g.
(** What the terminal answers when asked for the cursor. *)
Definition cursor_of (g : grid) : nat * nat := (Nat.min (g_col g) (g_width g - 1), g_row g).
Definition blank_grid (width height : nat) : grid := mkGrid width [] (repeat [] height) 0 0.

(** Several rows of text, each folded. *)
Definition folded_all (width : nat) (texts rows : list str) : Prop :=
  exists parts, Forall2 (folded width) texts parts /\ rows = List.concat parts.

(** The terminal shows, from the top (what has scrolled off included), the rows [above], then the row [row] with the
    cursor in column [col], and nothing below; rows have scrolled off only if there was no more room. *)
Definition displays (g : grid) (above : list str) (row : str) (col : nat) : Prop :=
  g_gone g ++ firstn (g_row g) (g_rows g) = above /\ row_text g = row /\
  Forall (fun r => r = []) (skipn (S (g_row g)) (g_rows g)) /\ cursor_of g = (col, g_row g) /\
  g_row g < g_height g /\ (g_gone g = [] \/ S (g_row g) = g_height g).

(** Events during which the terminal keeps its size; no key types a newline character. *)
Definition resizes (ev : event) : Prop := exists width, ev = EvResize width.
Definition newline_key (ev : event) : Prop := exists mods, ev = EvKey (KChar c_newline) mods.
Definition undisturbed (evs : list event) : Prop := Forall (fun ev => ~ resizes ev /\ ~ newline_key ev) evs.

(** On the alternate screen: the rows [above] from the top, below them the line being edited, folded after its prompt,
    and nothing else; the cursor is in its cell of that line (in the last row, if that cell is below it). *)
Definition edits_at (g : grid) (above : list str) (line : str) (cursor : nat) : Prop :=
  exists e blanks, echo (g_width g) line e /\ g_gone g = [] /\ g_rows g = above ++ e ++ repeat [] blanks /\
    cursor_of g = (2 + cursor mod (g_width g - 2), Nat.min (List.length above + cursor / (g_width g - 2)) (g_height g - 1)).

(** ** A session and its terminal *)

(** The terminal answers a question about cursor and width from what it shows. *)
Definition answering (g : grid) : terminal := fun _ => (cursor_of g, g_width g).
(** An event is handled.  The question at the beginning of the next line is asked when everything up to the reply has
    been written (src/main.rs:495-508, 163-167): that is what is written when the answer makes the program stop. *)
Definition no_width : terminal := fun _ => ((0, 0), 0).
Definition live_step (pr : profile) (ord : nat -> list str -> list str) (x : executor) (ev : event) (u : ui) (g : grid)
  : ui * grid * status :=
  let asked := snd (fst (ui_step pr ord x no_width ev u)) in
  let '(u', out, st) := ui_step pr ord x (answering (grid_after asked g)) ev u in (u', grid_after out g, st).
Fixpoint live_events (pr : profile) (ord : nat -> list str -> list str) (x : executor) (evs : list event) (u : ui) (g : grid)
  : ui * grid * status :=
  match evs with
  | [] => (u, g, Waiting)
  | ev :: evs' =>
      match live_step pr ord x ev u g with
      | (u', g', Waiting) => live_events pr ord x evs' u' g'
      | stopped => stopped
      end
  end.
(** A session on the terminal. *)
Definition live (pr : profile) (ord : nat -> list str -> list str) (x : executor) (a : args) (db : option saved_data)
           (evs : list event) (g : grid) : ui * grid * status :=
  match interactive_start pr (answering g) a db with
  | (u, out, Waiting) => live_events pr ord x evs u (grid_after out g)
  | (u, out, st) => (u, grid_after out g, st)
  end.
(** What was said in a run: the lines submitted, and the texts of their replies. *)
Inductive told (pr : profile) (ord : nat -> list str -> list str) (x : executor)
  : list event -> ui -> grid -> list (str * str) -> ui -> grid -> Prop :=
| to_end : forall u g, told pr ord x [] u g [] u g
| to_key : forall ev evs u g u1 g1 replies u2 g2, (forall mods, ev <> EvKey KEnter mods) ->
    live_step pr ord x ev u g = (u1, g1, Waiting) -> told pr ord x evs u1 g1 replies u2 g2 ->
    told pr ord x (ev :: evs) u g replies u2 g2
| to_enter : forall mods evs u g u1 g1 line se r text replies u2 g2, shown (u_inputs u) = Ok line ->
    calculate pr (ord (u_count u)) x line (session_of u) = (se, r) -> reply_text r text ->
    live_step pr ord x (EvKey KEnter mods) u g = (u1, g1, Waiting) -> told pr ord x evs u1 g1 replies u2 g2 ->
    told pr ord x (EvKey KEnter mods :: evs) u g ((line, text) :: replies) u2 g2.
Definition told_session (pr : profile) (ord : nat -> list str -> list str) (x : executor) (a : args) (db : option saved_data)
           (evs : list event) (g : grid) (replies : list (str * str)) (u : ui) (g' : grid) : Prop :=
  exists u0 out, interactive_start pr (answering g) a db = (u0, out, Waiting) /\
    told pr ord x evs u0 (grid_after out g) replies u g'.
(** The screen before the session: the rows [top], the cursor at the beginning of the row below them. *)
Definition ready (g : grid) (top : list str) : Prop :=
  g_gone g = [] /\ firstn (List.length top) (g_rows g) = top /\ cursor_of g = (0, List.length top) /\
  List.length top < g_height g.
(** A terminal of that width. *)
Definition wide (w : nat) : terminal := fun _ => ((0, 0), w).
(** Whenever the program waits, what was said and the line being edited fit on the screen, below [top]. *)
Definition enough_room (pr : profile) (ord : nat -> list str -> list str) (x : executor) (a : args) (db : option saved_data)
           (evs : list event) (g : grid) (top : list str) : Prop :=
  forall now later replies u g' rows phys line e, evs = now ++ later -> told_session pr ord x a db now g replies u g' ->
    transcript (wide (g_width g)) 0 replies rows -> folded_all (g_width g) rows phys ->
    shown (u_inputs u) = Ok line -> echo (g_width g) line e ->
    List.length top + List.length phys + List.length e <= g_height g.
