(** C20, C34, C35: FTP command framing, command parsing and reply framing. *)
From Coq Require Import Ascii String List ZArith Bool Lia.
From Verif Require Import Base Ftp FtpSpec FtpProofs.
Import ListNotations.
Open Scope Z_scope.

(** The commands recognised from a stream are those of its CRLF terminated
    lines, however the network cuts the stream. *)
Theorem C20_framing : forall chunks ls rest, lines_of (concat chunks) ls rest -> framed [] chunks = recognised ls rest.
Proof. exact framing. Qed.
Print Assumptions C20_framing.

Theorem C20_segmentation : forall chunks chunks', concat chunks = concat chunks' -> framed [] chunks = framed [] chunks'.
Proof. exact framing_segmentation. Qed.
Print Assumptions C20_segmentation.

(** Every stream has exactly one such reading. *)
Theorem C20_lines_unique : forall s,
  exists ls rest, lines_of s ls rest /\ forall ls' rest', lines_of s ls' rest' -> ls' = ls /\ rest' = rest.
Proof. exact lines_total. Qed.
Print Assumptions C20_lines_unique.

Example C20_example :
  framed [] [str "USER bo"; str "b" ++ [13]; [10] ++ str "nOOp" ++ [13]; [10; 13; 10]] = [Cmd (User (str "bob")); Cmd NoOp; Cmd (Unknown [])].
Proof. vm_compute. reflexivity. Qed.

(** Verbs are recognised in any letter case and arguments arrive unchanged. *)
Theorem C34_path_verbs : forall v k w s, In (v, k) path_verbs -> map upper w = str v -> utf8 s = true ->
  command_new (w ++ 32 :: s) = Some (k (components s)).
Proof. exact path_verb. Qed.
Print Assumptions C34_path_verbs.

Theorem C34_text_verbs : forall v k w s, In (v, k) text_verbs -> map upper w = str v -> utf8 s = true ->
  command_new (w ++ 32 :: s) = Some (k s).
Proof. exact text_verb. Qed.
Print Assumptions C34_text_verbs.

Theorem C34_plain_verbs : forall v c w d, In (v, c) plain_verbs -> map upper w = str v -> (d = [] \/ exists s, d = 32 :: s) ->
  command_new (w ++ d) = Some c.
Proof. exact plain_verb. Qed.
Print Assumptions C34_plain_verbs.

(** A PORT command never yields a privileged or impossible port. *)
Theorem C34_port_range : forall l p, command_new l = Some (Port p) -> 1024 < p <= 65535.
Proof. exact port_range. Qed.
Print Assumptions C34_port_range.

(** Path components are never empty, never hold a slash and are never a dot name in disguise. *)
Theorem C34_component_names : forall s n, In (Normal n) (comps (components s)) ->
  n <> [] /\ ~ In 47 n /\ n <> str "." /\ n <> str "..".
Proof. exact components_names. Qed.
Print Assumptions C34_component_names.

Example C34_example :
  command_new (str "stor /a//b/./../c.nef") = Some (Stor (mkP true [Normal (str "a"); Normal (str "b"); ParentDir; Normal (str "c.nef")])) /\
  command_new (str "PORT 10,0,0,1,x,4,1") = Some (Port 1025) /\ command_new (str "PORT 10,0,0,1,4,0") = None /\
  command_new (str "CWD") = None.
Proof. repeat split; vm_compute; reflexivity. Qed.

(** A client that follows RFC 959 reads each reply exactly to its end: lines
    taken from the answer never look like the final line. *)
Theorem C35_reply_framing : forall code message lines, 100 <= code <= 999 -> crlf_free message -> Forall crlf_free lines ->
  exists ls, lines_of (encode_answer code message lines) ls [] /\ reply_lines (code3 code) ls.
Proof. exact reply_framing. Qed.
Print Assumptions C35_reply_framing.

Example C35_example :
  encode_answer 211 (str "Feature list") [str "UTF8"; str "211 end"] =
  str "211- Feature list" ++ crlf ++ str "UTF8" ++ crlf ++ str " 211 end" ++ crlf ++ str "211 end" ++ crlf.
Proof. vm_compute. reflexivity. Qed.
