(** Specification of FTP command framing and reply framing (RFC 959). *)
From Coq Require Import Ascii String List ZArith Bool.
From Verif Require Import Base Ftp.
Import ListNotations.
Open Scope Z_scope.

(** no carriage return directly followed by a line feed *)
Definition crlf_free (l : bytes) : Prop := forall a b, l <> a ++ [13; 10] ++ b.

(** [s] consists of the CRLF terminated lines [ls] and an unterminated rest *)
Definition lines_of (s : bytes) (ls : list bytes) (rest : bytes) : Prop :=
  s = concat (map (fun l => l ++ [13; 10]) ls) ++ rest /\ Forall crlf_free ls /\ crlf_free rest.

(** commands of a list of lines: up to the first malformed one; an unterminated rest is malformed *)
Fixpoint recognised (ls : list bytes) (rest : bytes) : list item :=
  match ls with
  | [] => match rest with [] => [] | _ => [Bad] end
  | l :: ls => match command_new l with Some c => Cmd c :: recognised ls rest | None => [Bad] end
  end.

(** RFC 959: a reply starts with a three digit code.  If a blank or the line end
    follows, the reply is that line.  If a hyphen follows, the reply ends with
    the first line that starts with the same code and a blank. *)
Definition starts (p l : bytes) : Prop := exists r, l = p ++ r.
Inductive reply_lines (code : bytes) : list bytes -> Prop :=
| rl_single l : length code = 3%nat -> (l = code \/ starts (code ++ [32]) l) -> reply_lines code [l]
| rl_multi first mid final : length code = 3%nat -> starts (code ++ [45]) first -> starts (code ++ [32]) final ->
    Forall (fun l => ~ starts (code ++ [32]) l) mid -> reply_lines code (first :: mid ++ [final]).

(** verbs with a path argument and verbs without argument *)
Definition path_verbs : list (string * (pth -> command)) :=
  [("CWD", Cwd); ("RETR", Retr); ("STOR", Stor); ("MKD", Mkd); ("RMD", Rmd); ("DELE", Dele);
   ("LIST", fun p => List_ (Some p)); ("NLST", fun p => Nlst (Some p))]%string.
Definition text_verbs : list (string * (bytes -> command)) := [("USER", User); ("PASS", Pass); ("EPSV", fun s => Epsv (Some s))]%string.
Definition plain_verbs : list (string * command) :=
  [("AUTH", Auth); ("PASV", Pasv); ("PWD", Pwd); ("FEAT", Feat); ("QUIT", Quit); ("SYST", Syst); ("CDUP", CdUp); ("NOOP", NoOp)]%string.
