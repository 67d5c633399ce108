(** Reading the lines of a makefile: makefilelinereader.cpp. *)
From stdpp Require Import prelude.
From Verif Require Import Base.
Local Open Scope N_scope.

(** makefilelinereader.h:34-45 LineContinuationType, MakefileLine. The content is [None] for the null
    string. *)
Inductive cont := CNone | CBackslash | CCaret.
Record mline := MLine { ml_content : option qstr; ml_cont : cont }.

(** What is left of the file, in bytes. QIODevice::readLine(data, maxSize) returns the bytes up to and
    including the next line feed, but no more than maxSize - 1 of them and puts a zero byte behind them (makefilelinereader.cpp:104-161). *)
Fixpoint cutLine (n : nat) (rest : list N) : list N * list N :=
  match n, rest with
  | S n', c :: r =>
    if c =? 10 then ([c], r) else let '(l, r') := cutLine n' r in (c :: l, r')
  | _, _ => ([], rest)
  end.
(** The files are opened with QIODevice::Text (makefilelinereader.cpp:50): a carriage return before the line
    feed is removed if both are among the bytes read by the same call. *)
Definition crlf (l : list N) : list N := if endsWith [13; 10] l then qchop 2 l ++ [10] else l.
(** [None]: maxSize is less than 2, nothing is read (makefilelinereader.cpp:104-161). *)
Definition devReadLine (maxSize : nat) (rest : list N) : option (list N * list N) :=
  if Nat.ltb maxSize 2 then None else let '(l, r) := cutLine (maxSize - 1) rest in Some (crlf l, r).

(** The result of reading: a line; the end of the file; memory outside the buffer is written (makefilelinereader.cpp:91-102). *)
Inductive rres :=
| RLine (l : mline) (size : nat) (rest : list N)
| REnd
| RCrash.

(** The last character before the line end, makefilelinereader.cpp:104-161. *)
Definition lastIs (c : N) (l : list N) : bool := match last l with Some x => x =? c | None => false end.

(** makefilelinereader.cpp:114-132, the loop that completes the line. [buf]: the first bytesRead bytes of the
    buffer; [size]: m_nLineBufferSize; [grow]: m_nLineBufferGrowSize. The byte counted in addition at the end
    of a file is the zero byte put there by readLine. [fuel] is the number of bytes left. *)
Fixpoint readMore (grow fuel : nat) (size : nat) (buf rest : list N) : option (list N * nat * list N) :=
  if lastIs 10 buf then Some (buf, size, rest)
  else match rest with
  | [] => Some (buf ++ [0], if Nat.leb (size - 2) (length buf) then S size else size, rest)
  | _ =>
    match fuel with
    | O => Some (buf, size, rest)
    | S fuel' =>
      let size' := (size + grow)%nat in
      match devReadLine (size' - 1 - length buf) rest with
      | None | Some ([], _) => Some (buf, size', rest)
      | Some (more, r) =>
        (* readLine writes length more + 1 bytes *)
        if Nat.ltb size' (length buf + length more + 1) then None
        else readMore grow fuel' size' (buf ++ more) r
      end
    end
  end.

(** makefilelinereader.cpp:139-156: the kinds of line ends. [buf] has the (real or imitated) line feed at its
    end. *)
Definition classify (buf : list N) : mline :=
  let n := length buf in
  let at_ k := nth (n - k) buf 0 in
  if Nat.leb 2 n && (at_ 2%nat =? 92) then
    if Nat.leb 3 n && (at_ 3%nat =? 94) then MLine (Some (firstn (n - 3) buf ++ [92])) CNone
    else if Nat.leb 3 n && (at_ 3%nat =? 92) then MLine (Some (firstn (n - 1) buf)) CNone
    else MLine (Some (firstn (n - 2) buf)) CBackslash
  else if Nat.leb 2 n && (at_ 2%nat =? 94) then MLine (Some (firstn (n - 2) buf)) CCaret
  else MLine (Some (firstn (n - 1) buf)) CNone.

(** makefilelinereader.cpp:104-157 readLine_impl_local8bit. [fuel]: lines starting with # are skipped one at
    a time. The bytes become characters unchanged (fromLatin1). Simplification: the line number is left out. *)
Fixpoint readLine8 (grow fuel : nat) (size : nat) (rest : list N) : rres :=
  match fuel with
  | O => REnd
  | S fuel' =>
    match devReadLine (size - 1) rest with
    | None | Some ([], _) => REnd
    | Some (l, r) =>
      if Nat.ltb size (length l + 1) then RCrash
      else match readMore grow (length r) size l r with
      | None => RCrash
      | Some (buf, size', r') =>
        if (match buf with c :: _ => c =? 35 | [] => false end) then readLine8 grow fuel' size' r'
        else if Nat.ltb (length buf) size' then RLine (classify buf) size' r'   (* 134: buf[bytesRead] = 0 *)
        else RCrash
      end
    end
  end.

(** QTextStream::readLine on the decoded text: up to the next line feed, without it and without a carriage
    return before it; null at the end (makefilelinereader.cpp:163-191). *)
Fixpoint cutText (rest : list N) : list N * list N :=
  match rest with
  | [] => ([], [])
  | c :: r => if c =? 10 then ([], r) else let '(l, r') := cutText r in (c :: l, r')
  end.
(** makefilelinereader.cpp:163-191. *)
Definition streamReadLine (rest : list N) : option (list N * list N) :=
  match rest with
  | [] => None
  | _ => let '(l, r) := cutText rest in Some (if endsWith [13] l && negb (Nat.eqb (length l) (length rest)) then qchop 1 l else l, r)
  end.
(** makefilelinereader.cpp:172-186. *)
Definition classifyU (str : qstr) : mline :=
  if endsWith [94; 92] str then MLine (Some (qremove (length str - 2) 1 str)) CNone
  else if endsWith [92; 92] str then MLine (Some str) CNone
  else if endsWith [92] str then MLine (Some (qchop 1 str)) CBackslash
  else if endsWith [94] str then MLine (Some (qchop 1 str)) CCaret
  else MLine (Some str) CNone.
(** makefilelinereader.cpp:163-189 readLine_impl_unicode. *)
Fixpoint readLineU (fuel : nat) (rest : list N) : option (mline * list N) :=
  match fuel with
  | O => None
  | S fuel' =>
    match streamReadLine rest with
    | None => None
    | Some (l, r) => if startsWith [35] l then readLineU fuel' r else Some (classifyU l, r)
    end
  end.

(** makefilelinereader.h:66-67. *)
Definition initialBufferSize : nat := N.to_nat 6144.
Definition bufferGrowSize : nat := N.to_nat 1024.

(** makefilelinereader.cpp:32-38, 48-71: an open reader. [rd_text]: the bytes (the decoded text if the file starts
    with a byte order mark) not read yet; [rd_uni]: which of the two implementations is used.
    Simplification: decoding UTF-8 and UTF-16 is left out; the text comes decoded and without the mark. *)
Record reader := Reader { rd_uni : bool; rd_size : nat; rd_text : list N }.
Definition openReader (uni : bool) (text : list N) : reader := Reader uni initialBufferSize text.

(** makefilelinereader.cpp:91-99 readLine. In inline file mode the line comes with its line feed; an exhausted
    file gives the null string. Simplification: in a Unicode file the inline mode reads the bytes of the
    device behind the text stream; this is modelled as reading on. *)
Definition readerLine (inlineMode : bool) (r : reader) : option (mline * reader) :=
  if inlineMode then
    match rd_text r with
    | [] => Some (MLine None CNone, r)
    | t => let '(l, rest) := cutLine (length t) t in
           Some (MLine (Some (crlf l)) CNone, Reader (rd_uni r) (rd_size r) rest)
    end
  else if rd_uni r then
    match readLineU (S (length (rd_text r))) (rd_text r) with
    | Some (l, rest) => Some (l, Reader true (rd_size r) rest)
    | None => Some (MLine None CNone, Reader true (rd_size r) [])
    end
  else
    match readLine8 bufferGrowSize (S (length (rd_text r))) (rd_size r) (rd_text r) with
    | RLine l size rest => Some (l, Reader false size rest)
    | REnd => Some (MLine None CNone, Reader false (rd_size r) [])
    | RCrash => None
    end.
