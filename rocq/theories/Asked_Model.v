(** Questions answered with a key or a line, and keys pressed twice: dsh/src/repl/confirmation.rs l.12-83, dsh/src/proxy/mod.rs
    l.339-357, dsh/src/repl/state.rs l.34-82, dsh/src/repl/handler.rs l.79-82, l.275-281, repl/key_handlers/execution.rs l.308-323.

    What is printed and the mode of the terminal are left out (the latter is in Rawmode_Model).  Time is in milliseconds. *)
From Verif Require Import Base.
From Verif Require Safety_Model.

(** ** a question answered with a key *)
Inductive code := Char (c : char) | Esc | Enter | OtherKey (n : nat).
Inductive kind := Press | Repeat | Release.
Record mods := Mods { ctrl : bool; alt : bool; shift : bool }.
(** what event::read gives; [Fails] is an error *)
Inductive event := Key (c : code) (m : mods) (k : kind) | OtherEvent (n : nat) | Fails.

(** confirmation.rs l.47-72: the loop.  None: it waits for more; else the answer and the events left *)
Fixpoint confirm (es : list event) : option (Safety_Model.answer * list event) :=
  match es with
  | [] => None
  | Fails :: r => Some (Safety_Model.AskFailed, r)
  | Key c _ Press :: r =>
      match c with
      | Char x =>
          if (x =? 121)%N || (x =? 89)%N then Some (Safety_Model.Yes, r)
          else if (x =? 97)%N || (x =? 65)%N then Some (Safety_Model.AlwaysAllow, r)
          else if (x =? 110)%N || (x =? 78)%N then Some (Safety_Model.No, r)
          else confirm r
      | Esc => Some (Safety_Model.No, r)
      | Enter => Some (Safety_Model.No, r)
      | OtherKey _ => confirm r
      end
  | _ :: r => confirm r
  end.

(** ** a question answered with a line: proxy/mod.rs l.339-357.  The answer and the input left.  Lower case: ASCII; no other
    character has y as its lower case. *)
Fixpoint read_line (input : str) : str * str :=
  match input with
  | [] => ([], [])
  | c :: r => if (c =? 10)%N then ([c], r) else let (l, rest) := read_line r in (c :: l, rest)
  end.
Definition confirm_line (input : str) : bool * str :=
  let (l, rest) := read_line input in (str_eqb (lower (trim l)) (lit "y"), rest).

(** ** keys pressed twice: state.rs l.34-82 *)
Definition on_pressed (timeout : nat) (first : option nat) (now : nat) : option nat * bool :=
  match first with
  | None => (Some now, false)
  | Some t => if now - t <=? timeout then (None, true) else (Some now, false)
  end.
(** a key at a time: Esc with nothing to cancel, Ctrl+C, another *)
Inductive key := PressEsc | PressCtrlC | PressOther.
Record presses := Presses { esc : option nat; ctrl_c : option nat; toggled : nat; left_ : bool }.
Definition fresh : presses := Presses None None 0 false.
(** handler.rs l.79-82, l.275-281; execution.rs l.312-321 ([debug]: a build with debug assertions) *)
Definition press (debug : bool) (s : presses) (k : key * nat) : presses :=
  let (key, now) := k in
  let c := match key with PressCtrlC => ctrl_c s | _ => None end in
  match key with
  | PressEsc => let (e, twice) := on_pressed 400 (esc s) now in Presses (if twice then None else e) c (if twice then S (toggled s) else toggled s) (left_ s)
  | PressCtrlC => if debug then let (c', twice) := on_pressed (3 * 1000) c now in Presses (esc s) c' (toggled s) (if twice then true else left_ s) else Presses (esc s) c (toggled s) (left_ s)
  | PressOther => Presses (esc s) c (toggled s) (left_ s)
  end.
Definition run (debug : bool) (ks : list (key * nat)) : presses := fold_left (press debug) ks fresh.
