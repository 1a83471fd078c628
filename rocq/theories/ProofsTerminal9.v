(** ProofsTerminal9.v -- deciding whether there is enough room. *)
From Verif Require Import Base Position Num TokenTypes Errors Token SavedData Variables InputHistory
  SyntaxTree Commands Calculate Editor Sessions SpecEval SpecHistory SpecEditor SpecCalc SpecSession SpecMain SpecTerminal.
From Verif Require Import ProofsEval ProofsEditor3 ProofsEditor4 ProofsCalc4 ProofsSession ProofsTerminal ProofsTerminal3 ProofsTerminal5 ProofsTerminal6 ProofsTerminal7 ProofsTerminal8.
From Coq Require Import String Lia.
Local Open Scope nat_scope.
Local Open Scope list_scope.

Definition fold_of (w : nat) (s : str) : list str := match s with [] => [[]] | _ => chunks (List.length s) w s end.
Lemma fold_of_folded w s : 1 <= w -> folded w s (fold_of w s).
Proof.
  intros Hw. destruct s as [|c s]; [apply folded_short; cbn; lia|]. apply chunks_folded; [lia|discriminate|lia].
Qed.
Definition echo_of (w : nat) (line : str) : list str :=
  match fold_of (w - 2) line with [] => [] | f :: r => (lit "# " ++ f) :: map (app (lit "  ")) r end.
Lemma echo_of_echo w line : 3 <= w -> echo w line (echo_of w line).
Proof.
  intros Hw. pose proof (fold_of_folded (w - 2) line ltac:(lia)) as F. unfold echo_of. destruct (fold_of (w - 2) line) as [|f r] eqn:E.
  - destruct F as ([|x front] & last & X & _); discriminate X.
  - exists f, r. split; [reflexivity|exact F].
Qed.
Fixpoint script (w : nat) (replies : list (str * str)) : list str :=
  match replies with [] => [] | (line, text) :: rest => echo_of w line ++ split_lines text [] ++ script w rest end.
Lemma rows_of_split text rows : rows_of text rows -> rows = split_lines text [].
Proof. intros (A & B & C). destruct (split_lines_spec text [] (fun x => x)) as (A' & B' & C'). apply rows_unique; auto. cbn [rev app] in C'. congruence. Qed.
Lemma script_transcript w : 3 <= w -> forall replies n rows, transcript (wide w) n replies rows -> rows = script w replies.
Proof.
  intros Hw. induction replies as [|[l t] replies IH]; intros n rows T; inversion T as [|? ? ? ? e r rw E R T']; subst; [reflexivity|]. cbn [script].
  rewrite (rows_of_split _ _ R), (IH _ _ T'). rewrite (echo_unique w l _ _ Hw E (echo_of_echo w l Hw)). reflexivity.
Qed.
Lemma folds_all w rows phys : 1 <= w -> folded_all w rows phys -> phys = flat_map (fold_of w) rows.
Proof.
  intros Hw F. apply (folded_all_unique w rows); [exact Hw|exact F|]. exists (map (fold_of w) rows). split; [|rewrite flat_map_concat_map; reflexivity].
  clear -Hw. induction rows; cbn; constructor; [apply fold_of_folded; exact Hw|exact IHrows].
Qed.
Fixpoint tell (pr : profile) (ord : nat -> list str -> list str) (x : executor) (evs : list event) (u : ui) (g : grid) : option (list (str * str) * ui * grid) :=
  match evs with
  | [] => Some ([], u, g)
  | ev :: evs' =>
      match live_step pr ord x ev u g with
      | (u1, g1, Waiting) =>
          match tell pr ord x evs' u1 g1 with
          | Some (rs, u2, g2) =>
              match ev with
              | EvKey KEnter _ =>
                  match shown (u_inputs u) with
                  | Ok line => match render (snd (calculate pr (ord (u_count u)) x line (session_of u))) with Ok text => Some ((line, text) :: rs, u2, g2) | _ => None end
                  | _ => None
                  end
              | _ => Some (rs, u2, g2)
              end
          | None => None
          end
      | _ => None
      end
  end.
Lemma told_tell pr ord x evs u g rs u' g' : told pr ord x evs u g rs u' g' -> tell pr ord x evs u g = Some (rs, u', g').
Proof.
  induction 1 as [u g|ev evs u g u1 g1 rs u2 g2 Hne L T IH|mods evs u g u1 g1 line se r text rs u2 g2 Sh Ca Rt L T IH]; cbn [tell]; [reflexivity| |].
  - rewrite L, IH. destruct ev as [[]| | |]; try reflexivity. destruct (Hne mods eq_refl).
  - rewrite L, IH, Sh, Ca. cbn [snd]. rewrite (proj1 (reply_render _ _) Rt). reflexivity.
Qed.
Lemma tell_told pr ord x evs : forall u g rs u' g', tell pr ord x evs u g = Some (rs, u', g') -> told pr ord x evs u g rs u' g'.
Proof.
  induction evs as [|ev evs IH]; intros u g rs u' g' T; cbn [tell] in T.
  - injection T as <- <- <-. constructor.
  - destruct (live_step pr ord x ev u g) as [[u1 g1] st] eqn:L. destruct st; try discriminate T. destruct (tell pr ord x evs u1 g1) as [[[rs1 u2] g2]|] eqn:T1; [|discriminate T]. specialize (IH _ _ _ _ _ T1).
    assert (Ent : (exists mods, ev = EvKey KEnter mods) \/ forall mods, ev <> EvKey KEnter mods).
    { destruct ev as [[]| | |]; try (right; discriminate). left. eexists. reflexivity. }
    destruct Ent as [(mods & ->)|Hne].
    + destruct (shown (u_inputs u)) as [line|?|?] eqn:Sh; try discriminate T. destruct (calculate pr (ord (u_count u)) x line (session_of u)) as [se r] eqn:Ca. cbn [snd] in T.
      destruct (render r) as [text|?|?] eqn:R; try discriminate T. injection T as <- <- <-. eapply to_enter; eauto. apply reply_render. exact R.
    + assert (Some (rs1, u2, g2) = Some (rs, u', g')) as [= <- <- <-] by (destruct ev as [[]| | |]; try exact T; destruct (Hne mods eq_refl)). eapply to_key; eauto.
Qed.
Definition room_at (pr : profile) (ord : nat -> list str -> list str) (x : executor) (a : args) (db : option saved_data) (now : list event) (g : grid) (top : list str) : bool :=
  match interactive_start pr (answering g) a db with
  | (u0, out, Waiting) =>
      match tell pr ord x now u0 (grid_after out g) with
      | Some (rs, u, _) =>
          match shown (u_inputs u) with
          | Ok line => Nat.leb (List.length top + List.length (flat_map (fold_of (g_width g)) (script (g_width g) rs)) + List.length (echo_of (g_width g) line)) (g_height g)
          | _ => true
          end
      | None => true
      end
  | _ => true
  end.
Lemma room_check pr ord x a db evs g top : 3 <= g_width g -> forallb (fun k => room_at pr ord x a db (firstn k evs) g top) (seq 0 (S (List.length evs))) = true -> enough_room pr ord x a db evs g top.
Proof.
  intros Hw C now later replies u g' rows phys line e -> (u0 & out & S0 & T) Tr F Sh E. rewrite forallb_forall in C. specialize (C (List.length now)).
  assert (I : In (List.length now) (seq 0 (S (List.length (now ++ later))))) by (apply in_seq; rewrite app_length; lia). specialize (C I). rewrite firstn_exact in C.
  unfold room_at in C. rewrite S0, (told_tell _ _ _ _ _ _ _ _ _ T), Sh in C. apply Nat.leb_le in C.
  rewrite (script_transcript _ Hw _ _ _ Tr) in F. rewrite (folds_all (g_width g) _ _ ltac:(lia) F). rewrite (echo_unique _ _ _ _ Hw E (echo_of_echo _ line Hw)). exact C.
Qed.
