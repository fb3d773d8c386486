(** Any sequence of calls on a [Wtf8String]: wtf8/src/lib.rs. *)
From Verif Require Import Base Wtf8Model.

(** lib.rs 623-625 [push_str], bytes of a [&str]. *)
Definition push_str (s other : list Z) : list Z := s ++ other.
(** lib.rs 803-814 [Wtf8Str::clone_into]: cut the target, overwrite what is
    left, append the rest; [split_at] and [clone_from_slice] check lengths. *)
Definition clone_into (s buf : list Z) : res (list Z) :=
  let buf := firstn (length s) buf in
  if (length s <? length buf)%nat then Panic PIndex
  else let '(init, tail) := (firstn (length buf) s, skipn (length buf) s) in
       if (length buf =? length init)%nat then Ok (init ++ tail) else Panic PAssert.

(** The safe calls that change a string or replace it by a new one. *)
Inductive scall : Type :=
| SPush (c : Z)            (* push *)
| SPushChar (c : Z)        (* push_char *)
| SPushStr (t : list Z)    (* push_str *)
| SPushWtf8 (t : list Z)   (* push_wtf8 *)
| SExtend (cs : list Z)    (* extend *)
| SClear                   (* clear *)
| STruncate (n : nat)      (* truncate *)
| SRange (a b : nat)       (* s[a..b].to_owned() *)
| SLower | SUpper          (* to_ascii_lowercase, to_ascii_uppercase *)
| SFromWide (v : list Z)   (* from_wide *)
| SFromBytes (b : list Z)  (* from_bytes; stays as it was on Err *)
| SCloneInto (t : list Z). (* t.clone_into(&mut s) *)
Definition call (o : scall) (s : list Z) : res (list Z) :=
  match o with
  | SPush c => Ok (push s c)
  | SPushChar c => Ok (push_char s c)
  | SPushStr t => Ok (push_str s t)
  | SPushWtf8 t => Ok (push_wtf8 s t)
  | SExtend cs => Ok (extend_cps s cs)
  | SClear => Ok []
  | STruncate n => truncate s n
  | SRange a b => index_range s a b
  | SLower => Ok (to_ascii_lowercase s)
  | SUpper => Ok (to_ascii_uppercase s)
  | SFromWide v => Ok (from_wide v)
  | SFromBytes b => match from_bytes b with Ok t => Ok t | Err _ => Ok s | Panic p => Panic p end
  | SCloneInto t => clone_into t s
  end.
(** From [Wtf8String::new()] (lib.rs 437-440); a panic ends the run. *)
Fixpoint run (os : list scall) (s : list Z) : res (list Z) :=
  match os with
  | [] => Ok s
  | o :: os => s <- call o s ;; run os s
  end.
