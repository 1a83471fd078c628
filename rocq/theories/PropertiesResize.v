(** PropertiesResize.v -- C84: whatever happens to the window, the line being edited is what the terminal shows. *)
From Verif Require Import Base Position Num TokenTypes Errors Token SavedData Variables InputHistory
  SyntaxTree Commands Calculate Editor Sessions SpecEval SpecEditor SpecCalc SpecSession SpecMain SpecTerminal SpecResize.
From Verif Require Import ProofsCalc4 ProofsResize ProofsResize2 PropertiesEditor PropertiesCalc PropertiesTerminal.
From Coq Require Import String Lia.
Local Open Scope nat_scope.
Local Open Scope list_scope.

(** ** C84 *)
(** Inline: whatever keys are pressed and however the terminal is resized (and whatever it makes of its contents then),
    whenever the program waits and the terminal is at least six columns wide, the row of the cursor shows the line being
    edited -- all of it or the part around the cursor, fitted to the present width -- and the terminal's cursor is on the
    character at the line's cursor. *)
Theorem C84_inline : forall pr ord a db evs g u g' line, resized_session pr ord the_executor a db evs g u g' -> a_alternate_screen a = false ->
  6 <= g_width g' -> fits_u16 (g_width g') -> shown (u_inputs u) = Ok line -> ~ In c_newline line ->
  row_shows (g_width g') line (l_cursor (u_line u)) (row_text g') (fst (cursor_of g')).
Proof. exact inline_shown. Qed.
Print Assumptions C84_inline.
(** No event but Enter writes anything outside that row. *)
Theorem C84_inline_nothing_else : forall pr ord a db evs g0 u g ev g' u1 g1 line, resized_session pr ord the_executor a db evs g0 u g -> a_alternate_screen a = false ->
  (forall mods, ev <> EvKey KEnter mods) -> (~ resizes ev -> g' = g) -> (forall w, ev = EvResize w -> g_width g' = w /\ g_row g' < g_height g') ->
  live_step pr ord the_executor ev u g' = (u1, g1, Waiting) -> 6 <= g_width g' -> fits_u16 (g_width g') -> shown (u_inputs u1) = Ok line -> ~ In c_newline line ->
  g_gone g1 = g_gone g' /\ g_row g1 = g_row g' /\ firstn (g_row g1) (g_rows g1) = firstn (g_row g') (g_rows g') /\
  skipn (S (g_row g1)) (g_rows g1) = skipn (S (g_row g')) (g_rows g').
Proof. exact inline_rest. Qed.
Print Assumptions C84_inline_nothing_else.
(** Enter leaves the line, folded to the present width, and the reply below what was there, and the prompt below them. *)
Theorem C84_inline_enter : forall pr ord a db evs g0 u g mods u1 g1 line se r text above row col, resized_session pr ord the_executor a db evs g0 u g -> a_alternate_screen a = false ->
  6 <= g_width g -> fits_u16 (g_width g) -> shown (u_inputs u) = Ok line -> ~ In c_newline line ->
  calculate pr (ord (u_count u)) the_executor line (session_of u) = (se, r) -> reply_text r text -> displays g above row col ->
  live_step pr ord the_executor (EvKey KEnter mods) u g = (u1, g1, Waiting) ->
  exists e rows phys, echo (g_width g) line e /\ rows_of text rows /\ folded_all (g_width g) rows phys /\ displays g1 (above ++ e ++ phys) (lit "# ") 2.
Proof. exact inline_enter. Qed.
Print Assumptions C84_inline_enter.
(** Alternate screen: from the row on where the line was begun there is the line, folded to the present width, and nothing
    else, and the cursor is in its cell -- if it fits on the screen now, whether or not it always did. *)
Theorem C84_alternate : forall pr ord a db evs g u g' line e, resized_session pr ord the_executor a db evs g u g' -> a_alternate_screen a = true -> fst (cursor_of g) = 0 ->
  3 <= g_width g' -> fits_u16 (g_width g') -> fits_u16 (g_height g') -> shown (u_inputs u) = Ok line -> ~ In c_newline line ->
  echo (g_width g') line e -> first_row u + List.length e <= g_height g' -> rows_show g' (first_row u) line (l_cursor (u_line u)).
Proof. exact alternate_shown. Qed.
Print Assumptions C84_alternate.
Theorem C84_alternate_nothing_else : forall pr ord a db evs g0 u g ev g' u1 g1 line e, resized_session pr ord the_executor a db evs g0 u g -> a_alternate_screen a = true -> fst (cursor_of g0) = 0 ->
  (forall mods, ev <> EvKey KEnter mods) -> (~ resizes ev -> g' = g) -> (forall w, ev = EvResize w -> g_width g' = w /\ g_row g' < g_height g') ->
  live_step pr ord the_executor ev u g' = (u1, g1, Waiting) -> 3 <= g_width g' -> fits_u16 (g_width g') -> fits_u16 (g_height g') ->
  shown (u_inputs u1) = Ok line -> ~ In c_newline line -> echo (g_width g') line e -> first_row u + List.length e <= g_height g' ->
  first_row u1 = first_row u /\ g_gone g1 = g_gone g' /\ firstn (first_row u) (g_rows g1) = firstn (first_row u) (g_rows g').
Proof. exact alternate_rest. Qed.
Print Assumptions C84_alternate_nothing_else.
(** A line of ten characters on twenty columns; the window shrinks to ten, in the middle of which the terminal leaves
    rubbish; Home; the window grows to thirty; Enter. *)
Definition rubbish (w h row : nat) : grid := mkGrid w [lit "gone"] (repeat (lit "rubbish") h) row 3.
Definition resizing (mode : bool) (evs : list (event * grid)) : option (str * nat * list str * (nat * nat)) :=
  match replay_session Debug (fun _ => order) the_executor (settings0 mode) (Some disk0) evs (blank_grid 20 4) with
  | Some (u, g) => Some (match shown (u_inputs u) with Ok s => s | _ => [] end, l_cursor (u_line u), g_rows g, cursor_of g)
  | None => None
  end.
Definition plainly (ev : event) : event * grid := (ev, blank_grid 0 0).
Definition ten : list (event * grid) := map plainly (keys_of (lit "1234567890")).
Example C84_example :
  resizing false ten = Some (lit "1234567890", 10, [lit "# 1234567890"; []; []; []], (12, 0)) /\
  resizing false (ten ++ [(EvResize 10, rubbish 10 3 1)]) = Some (lit "1234567890", 10, [lit "rubbish"; lit "< 7890"; lit "rubbish"], (6, 1)) /\
  resizing false (ten ++ [(EvResize 10, rubbish 10 3 1); plainly (EvKey KHome 0)]) = Some (lit "1234567890", 0, [lit "rubbish"; lit "# 123456 >"; lit "rubbish"], (2, 1)) /\
  resizing false (ten ++ [(EvResize 10, rubbish 10 3 1); plainly (EvKey KHome 0); (EvResize 30, rubbish 30 3 1)]) = Some (lit "1234567890", 0, [lit "rubbish"; lit "# 1234567890"; lit "rubbish"], (2, 1)) /\
  resizing true (ten ++ [(EvResize 10, rubbish 10 3 2)]) = Some (lit "1234567890", 10, [lit "# 12345678"; lit "  90"; []], (4, 1)) /\
  (forall mode evs u g, replay_session Debug (fun _ => order) the_executor (settings0 mode) (Some disk0) evs (blank_grid 20 4) = Some (u, g) ->
    resized_session Debug (fun _ => order) the_executor (settings0 mode) (Some disk0) (map fst evs) (blank_grid 20 4) u g).
Proof.
  split; [vm_compute; reflexivity|]. split; [vm_compute; reflexivity|]. split; [vm_compute; reflexivity|]. split; [vm_compute; reflexivity|]. split; [vm_compute; reflexivity|].
  intros mode evs u g. apply replay_session_run.
Qed.
