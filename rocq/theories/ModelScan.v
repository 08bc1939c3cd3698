(* Model of src/gribjump/info/InfoExtractor.cc:34-80, findGRIBOffsets: the search for the
   four bytes "GRIB" in a file that is read in pieces of BUFFER_SIZE bytes.
   The buffer size is a parameter (the code has 1024*1024).  eckit::FileHandle::read is fread:
   it returns fewer bytes than asked only at the end of the file. *)
From Verif Require Import Base.

Local Open Scope nat_scope.

(* "GRIB", line 35 *)
Definition grib_word : list N := [71; 82; 73; 66]%N.
Definition plen : nat := 4.
Definition overlap : nat := 3.

Fixpoint bytes_eqb (a b : list N) : bool :=
  match a, b with
  | [], [] => true
  | x :: a', y :: b' => (x =? y)%N && bytes_eqb a' b'
  | _, _ => false
  end.

(* overwriting part of the buffer starting at index o; writing past its end is undefined *)
Definition buf_write (buf : list N) (o : nat) (d : list N) : outcome (list N) :=
  if o + length d <=? length buf then Ok (firstn o buf ++ d ++ skipn (o + length d) buf) else UB.

(* memcmp(&buffer[i], pattern, plen) == 0, line 59 *)
Definition match_at (buf : list N) (i : nat) : outcome bool :=
  if i + plen <=? length buf then Ok (bytes_eqb (slice buf i plen) grib_word) else UB.

(* the for loop of lines 58-62: n candidate positions starting at i *)
Fixpoint search (buf : list N) (file_pos : N) (i n : nat) : outcome (list N) :=
  match n with
  | O => Ok []
  | S n' =>
      let* b := match_at buf i in
      let* r := search buf file_pos (S i) n' in
      Ok (if b then sub64 (add64 file_pos (N.of_nat i)) (N.of_nat overlap) :: r else r)
  end.

(* the while loop of lines 47-71.  [rest] is what the file handle has not delivered yet.
   The loop bound i <= bytesRead + OVERLAP - plen is bytesRead candidate positions. *)
Fixpoint chunks (fuel B : nat) (buf carry rest : list N) (file_pos : N) : outcome (list N) :=
  match fuel with
  | O => Throw ESeriousBug
  | S fuel' =>
      let* buf := buf_write buf 0 carry in
      let piece := firstn B rest in
      let* buf := buf_write buf overlap piece in
      let bytes_read := length piece in
      if bytes_read =? 0 then Ok []
      else
        let* found := search buf file_pos 0 (bytes_read + overlap - plen + 1) in
        if overlap <=? bytes_read then
          if bytes_read + overlap <=? length buf then
            let* more := chunks fuel' B buf (slice buf bytes_read overlap) (skipn B rest)
                                (add64 file_pos (N.of_nat bytes_read)) in
            Ok (found ++ more)
          else UB
        else Ok found
  end.

(* lines 34-80; the last hit is dropped because the message there may be incomplete *)
Definition find_grib_offsets (B : nat) (file : list N) : outcome (list N) :=
  let* hits := chunks (S (length file)) B (repeat 0%N (B + overlap)) (repeat 0%N overlap) file 0%N in
  Ok (removelast hits).
