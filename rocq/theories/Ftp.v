(** FTP commands, their framing and the encoding of replies:
    embedftp/src/command.rs, embedftp/src/codec.rs.  Paths are reduced to
    their components as std::path::Path::components does on Unix. *)
From Coq Require Import Ascii String List ZArith Bool.
From Verif Require Import Base.
Import ListNotations.
Open Scope Z_scope.

Definition bytes := list Z.
Definition str (s : string) : bytes := map (fun c => Z.of_N (N_of_ascii c)) (list_ascii_of_string s).
Definition bytes_eqb (a b : bytes) : bool := if list_eq_dec Z.eq_dec a b then true else false.

(** ** paths (std::path on Unix) *)
Definition name := bytes.
Inductive comp := CurDir | ParentDir | Normal (n : name).
Record pth := mkP { rooted : bool; comps : list comp }.

(** split at every '/' *)
Fixpoint split_on (c : Z) (s : bytes) : list bytes :=
  match s with
  | [] => [[]]
  | b :: s => match split_on c s with
              | w :: ws => if b =? c then [] :: w :: ws else (b :: w) :: ws
              | [] => [[b]]
              end
  end.
Definition comp_of (w : bytes) : comp :=
  if bytes_eqb w (str ".") then CurDir else if bytes_eqb w (str "..") then ParentDir else Normal w.
(** Path::components: empty pieces vanish, "." vanishes except at the start of a relative path *)
Definition components (s : bytes) : pth :=
  let ws := split_on 47 s in
  let root := match s with b :: _ => b =? 47 | [] => false end in
  let keep w := negb (bytes_eqb w [] || bytes_eqb w (str ".")) in
  let cs := map comp_of (filter keep ws) in
  mkP root (if negb root && match ws with w :: _ => bytes_eqb w (str ".") | [] => false end then CurDir :: cs else cs).

(** ** UTF-8 validation, core::str::from_utf8 *)
Definition inr (lo hi b : Z) : bool := (lo <=? b) && (b <=? hi).
Fixpoint utf8 (s : bytes) : bool :=
  match s with
  | [] => true
  | b :: s =>
    if inr 0 127 b then utf8 s
    else match s with
    | [] => false
    | c :: s =>
      if inr 194 223 b then inr 128 191 c && utf8 s
      else match s with
      | [] => false
      | d :: s =>
        if inr 224 224 b then inr 160 191 c && inr 128 191 d && utf8 s
        else if inr 237 237 b then inr 128 159 c && inr 128 191 d && utf8 s
        else if inr 225 239 b then inr 128 191 c && inr 128 191 d && utf8 s
        else match s with
        | [] => false
        | e :: s =>
          if inr 240 240 b then inr 144 191 c && inr 128 191 d && inr 128 191 e && utf8 s
          else if inr 241 243 b then inr 128 191 c && inr 128 191 d && inr 128 191 e && utf8 s
          else if inr 244 244 b then inr 128 143 c && inr 128 191 d && inr 128 191 e && utf8 s
          else false
        end
      end
    end
  end.

(** u8::from_str *)
Fixpoint digits (acc : Z) (s : bytes) : option Z :=
  match s with
  | [] => Some acc
  | b :: s => if inr 48 57 b then let v := acc * 10 + (b - 48) in if v <=? 255 then digits v s else None else None
  end.
Definition u8_from_str (s : bytes) : option Z :=
  match s with
  | [] => None
  | b :: (_ :: _) as t => if b =? 43 then digits 0 t else digits 0 s
  | _ => digits 0 s
  end.

(** ** commands, command.rs:9-34 *)
Inductive transfer_type := AsciiT | ImageT.
Inductive command :=
| Auth | Cwd (p : pth) | List_ (p : option pth) | Nlst (p : option pth) | Mkd (p : pth) | NoOp | Port (port : Z)
| Pass (s : bytes) | Pasv | Epsv (s : option bytes) | Pwd | Quit | Retr (p : pth) | Rmd (p : pth) | Dele (p : pth)
| Stor (p : pth) | Syst | Feat | Type_ (t : transfer_type) | CdUp | Unknown (s : bytes) | User (s : bytes).

Definition upper (b : Z) : Z := if inr 97 122 b then b - 32 else b.

(** position of the first blank; command word and the rest, command.rs:68-74 *)
Fixpoint split_blank (s : bytes) : bytes * option bytes :=
  match s with
  | [] => ([], None)
  | b :: s => if b =? 32 then ([], Some s) else let '(c, d) := split_blank s in (b :: c, d)
  end.

Definition utf8_arg (d : option bytes) : option bytes := match d with Some s => if utf8 s then Some s else None | None => None end.
Definition path_arg (d : option bytes) : option pth := option_map components (utf8_arg d).
Definition filter_map {A B} (f : A -> option B) (l : list A) : list B :=
  flat_map (fun a => match f a with Some b => [b] | None => [] end) l.

(** Command::new, command.rs:67-127; [None] is Err *)
Definition command_new (input : bytes) : option command :=
  let '(word, data) := split_blank input in
  let word := map upper word in
  let is s := bytes_eqb word (str s) in
  if is "AUTH"%string then Some Auth
  else if is "CWD"%string then option_map Cwd (path_arg data)
  else if is "LIST"%string then Some (List_ (path_arg data))
  else if is "NLST"%string then Some (Nlst (path_arg data))
  else if is "PASV"%string then Some Pasv
  else if is "EPSV"%string then Some (Epsv (utf8_arg data))
  else if is "PORT"%string then
    match data with
    | None => None
    | Some d =>
      match filter_map (fun w => if utf8 w then u8_from_str w else None) (split_on 44 d) with
      | [_; _; _; _; hi; lo] => let port := hi * 256 + lo in if port <=? 1024 then None else Some (Port port)
      | _ => None
      end
    end
  else if is "PWD"%string then Some Pwd
  else if is "FEAT"%string then Some Feat
  else if is "QUIT"%string then Some Quit
  else if is "RETR"%string then option_map Retr (path_arg data)
  else if is "STOR"%string then option_map Stor (path_arg data)
  else if is "SYST"%string then Some Syst
  else if is "TYPE"%string then
    match data with
    | Some (b :: _) => if b =? 65 then Some (Type_ AsciiT) else if b =? 73 then Some (Type_ ImageT) else None
    | _ => None
    end
  else if is "CDUP"%string then Some CdUp
  else if is "MKD"%string then option_map Mkd (path_arg data)
  else if is "RMD"%string then option_map Rmd (path_arg data)
  else if is "DELE"%string then option_map Dele (path_arg data)
  else if is "USER"%string then option_map User (utf8_arg data)
  else if is "PASS"%string then option_map Pass (utf8_arg data)
  else if is "NOOP"%string then Some NoOp
  else Some (Unknown (if utf8 word then word else [])).

(** ** framing, codec.rs:16-27 and 57-59 *)
(** find_crlf *)
Fixpoint find_crlf (s : bytes) : option nat :=
  match s with
  | a :: (b :: _) as t => if (a =? 13) && (b =? 10) then Some O else option_map S (find_crlf t)
  | _ => None
  end.

Inductive decoded := NeedMore | Line (c : option command).
(** decode: the item and the remaining buffer *)
Definition decode (buf : bytes) : decoded * bytes :=
  match find_crlf buf with
  | Some i => (Line (command_new (firstn i buf)), skipn 2 (skipn i buf))
  | None => (NeedMore, buf)
  end.

(** tokio_util::codec::FramedRead drives the decoder: it calls [decode] until
    it needs more bytes, then appends the next chunk.  At the end of the stream
    (decode_eof) bytes that form no command are an error.  An error ends the
    stream.  [fuel] bounds the calls of one round; the length of the buffer
    suffices because each call removes two bytes at least. *)
Inductive item := Cmd (c : command) | Bad.
Fixpoint drain (fuel : nat) (buf : bytes) : list item * option bytes :=
  match fuel with
  | O => ([], Some buf)
  | S fuel =>
    match decode buf with
    | (NeedMore, buf) => ([], Some buf)
    | (Line None, _) => ([Bad], None)
    | (Line (Some c), buf) => let '(is, r) := drain fuel buf in (Cmd c :: is, r)
    end
  end.
Fixpoint framed (buf : bytes) (chunks : list bytes) : list item :=
  match chunks with
  | [] => match buf with [] => [] | _ => [Bad] end
  | c :: chunks =>
    let '(is, r) := drain (S (length (buf ++ c))) (buf ++ c) in
    is ++ match r with Some buf => framed buf chunks | None => [] end
  end.

(** ** replies, codec.rs:32-54; [code] is printed in decimal *)
Definition crlf : bytes := [13; 10].
Definition code3 (code : Z) : bytes := [48 + code / 100; 48 + code / 10 mod 10; 48 + code mod 10].
Definition reply_line (line : bytes) : bytes :=
  match line with
  | b :: _ => if inr 48 57 b then 32 :: line ++ crlf else line ++ crlf
  | [] => line ++ crlf
  end.
Definition encode_answer (code : Z) (message : bytes) (lines : list bytes) : bytes :=
  match lines with
  | _ :: _ => code3 code ++ str "- " ++ message ++ crlf ++ flat_map reply_line lines ++ code3 code ++ str " end" ++ crlf
  | [] => match message with
          | [] => code3 code ++ crlf
          | _ => code3 code ++ [32] ++ message ++ crlf
          end
  end.
