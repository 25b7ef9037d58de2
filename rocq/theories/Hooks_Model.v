(** Calling Lisp hooks: dsh/src/shell/hooks.rs exec_pre_exec_hooks, exec_post_exec_hooks,
    exec_completion_hooks, and dsh/src/lisp/mod.rs run.

    The program is built as text, read by the reader of Lread_Model and evaluated by
    the evaluator of Lisp_Model in the outermost frame (number 0).  The hooks on
    project switches and unknown commands, which wrap the same call in another form,
    are left out. *)
From Verif Require Import Base Lread_Model Lisp_Model.

Definition quote_mark : char := 34%N.
Definition backslash : char := 92%N.
(** command.replace of every double quote by a backslash and a double quote *)
Definition escape (s : str) : str := flat_map (fun c => if (c =? quote_mark)%N then [backslash; quote_mark] else [c]) s.

(** hooks.rs l.105-108, 126-130, 185-189: the program; [extra] are the integers after the
    text (the exit code, or the cursor) *)
Definition hook_front : str := lit "(map (lambda (hook) (hook ".
Definition hook_code (name text : str) (extra : list Z) : str :=
  hook_front ++ quote_mark :: escape text ++ quote_mark :: flat_map (fun z => chr " " :: show_int z) extra ++ lit ")) " ++ name ++ lit ")".

Definition pre_exec : str := lit "*pre-exec-hooks*".
Definition post_exec : str := lit "*post-exec-hooks*".
Definition completion : str := lit "*completion-hooks*".

Section Hooks.
Variable unum : char -> bool.
Variable W : Type.
Variable native : nat -> str -> list lv -> M W lv.
Variable set_variable : W -> str -> lv -> W.
Variable add_autocomplete : W -> list lv -> W.
(** lisp/mod.rs l.166-183 run *)
Definition run (fuel : nat) (code : str) : M W lv := fun s =>
  match first unum code with
  | Some (Good v _) => eval W native set_variable add_autocomplete true fuel top 0 (embed v) s
  | Some _ => Err _ _ s
  | None => Ok _ _ nil_v s
  end.
(** hooks.rs l.94-116, 118-140, 173-196, and lisp/mod.rs l.263-270 *)
Definition exec_hooks (fuel : nat) (name text : str) (extra : list Z) : M W lv := fun s =>
  match get (hp W s) 0 name with
  | Some (LList (_ :: _)) => run fuel (hook_code name text extra) s
  | _ => Ok _ _ nil_v s
  end.
End Hooks.
