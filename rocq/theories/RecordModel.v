(* Model of base/src/Record.cxx and base/dabc/Record.h: sizestream, memstream,
   string and field streaming, field maps, records, field-map differences. *)
From Verif Require Import Common ListFacts Bytes RecordSpec.
Open Scope N_scope.

(* ---------------------------------------------------------------- output -- *)

(* An output stream: memstream (base/dabc/Record.h:132-163) when [w_real],
   sizestream (base/dabc/Record.h:102-126) otherwise.  [w_pos] is size(),
   [w_left] fRemains of the memstream, [w_out] the bytes written so far. *)
Record ws : Type := mkW { w_real : bool; w_pos : N; w_left : N; w_out : bytes }.

Definition size0 : ws := mkW false 0 0 [].
Definition mem0 (n : N) : ws := mkW true 0 n [].

(* memstream::write base/src/Record.cxx:122-129, sizestream::write Record.h:123 *)
Definition wwrite (s : ws) (b : bytes) : ws * bool :=
  if w_real s then
    if w_left s <? lenN b then (s, false)
    else (mkW true (w_pos s + lenN b) (w_left s - lenN b) (w_out s ++ b), true)
  else (mkW false (w_pos s + lenN b) (w_left s) (w_out s), true).

(* several writes in a row, results ignored as the callers do *)
Definition wwrites (s : ws) (l : list bytes) : ws := fold_left (fun s b => fst (wwrite s b)) l s.

(* maxstoresize: Record.h:117 (sizestream), Record.h:146 (memstream) *)
Definition maxstoresize (s : ws) : N := if w_real s then w_left s else 4294967295.

(* padding loop at base/src/Record.cxx:57-63: zero bytes, at most 8 at a time *)
Fixpoint pad (k : nat) (s : ws) (rest : N) : ws :=
  match k with
  | O => s
  | S k' =>
    if rest =? 0 then s
    else let p := N.min rest 8 in pad k' (fst (wwrite s (repeat 0 (N.to_nat p)))) (rest - p)
  end.

(* iostream::verify_size base/src/Record.cxx:33-65, output branch *)
Definition verify_out (s : ws) (pos sz : N) : ws * bool :=
  let actual := w_pos s - pos in
  if actual =? sz then (s, true)
  else if negb (pos mod 8 =? 0) then (s, false)
  else if negb (w_real s) then
    let rest := w_pos s mod 8 in
    (if 0 <? rest then mkW false (w_pos s + (8 - rest)) (w_left s) (w_out s) else s, true)
  else if negb (sz mod 8 =? 0) then (s, false)
  else if sz <? actual then (s, false)
  else (pad (S (N.to_nat ((sz - actual) / 8))) s (sz - actual), true).

(* iostream::str_storesize base/src/Record.cxx:68-74 *)
Definition round8 (n : N) : N := (n + 7) / 8 * 8.
Definition str_storesize (str : bytes) : N := round8 (4 + (lenN str + 1)).

(* iostream::write_str base/src/Record.cxx:76-92 *)
Definition write_str (s : ws) (str : bytes) : ws * bool :=
  let sz := str_storesize str in
  if maxstoresize s <? sz then (s, false)
  else verify_out (wwrites s [le 4 (sz / 8); str ++ [0]]) (w_pos s) sz.

(* enum ValueKind base/dabc/Record.h:227-241 *)
Definition kind (v : value) : N :=
  match v with
  | VNone => 0 | VBool _ => 1 | VInt _ => 2 | VDatime _ => 3 | VUInt _ => 4 | VDouble _ => 5
  | VArrInt _ => 6 | VArrUInt _ => 7 | VArrDouble _ => 8 | VStr _ => 9 | VArrStr _ => 10
  | VBuf _ => 11 | VRef => 12 | VOther k => k | VJunk k => k
  end.

(* the write calls of RecordField::Stream base/src/Record.cxx:355-394.
   [VBuf b]: [b] is the first segment of the buffer, only that one is stored.
   [VJunk] is never written by the theorems (excluded by [proper]). *)
Definition chunks (v : value) : list bytes :=
  match v with
  | VNone => []
  | VBool w | VInt w | VDatime w | VUInt w | VDouble w => [le 8 w]
  | VArrInt ws | VArrUInt ws | VArrDouble ws => [le 8 (lenN ws); concat (map (le 8) ws)]
  | VStr b => [b ++ [0]]
  | VArrStr l => [le 8 (lenN l); concat (map (fun b => b ++ [0]) l)]
  | VBuf b => [le 8 (lenN b); b]
  | VRef => []
  | VOther _ | VJunk _ => []
  end.

(* RecordField::Stream base/src/Record.cxx:343-452, output branch; [sz] is the
   stored size computed by the caller's StoreSize() (0 in a sizestream) *)
Definition field_body (s : ws) (sz : N) (v : value) : ws * bool :=
  verify_out (wwrites s (le 4 (sz / 8) :: le 4 (kind v) :: chunks v)) (w_pos s) sz.

(* RecordField::StoreSize base/src/Record.cxx:336-341 *)
Definition field_size (v : value) : N := w_pos (fst (field_body size0 0 v)).

Definition field_out (s : ws) (v : value) : ws * bool :=
  field_body s (if w_real s then field_size v else 0) v.

(* RecordFieldsMap::match_prefix base/src/Record.cxx:1457-1464 *)
Fixpoint prefixb (p name : bytes) : bool :=
  match p, name with
  | [], _ => true
  | _ :: _, [] => false
  | x :: p', y :: n' => (x =? y) && prefixb p' n'
  end.
Definition match_prefix (name prefix : bytes) : bool := visible name && prefixb prefix name.

(* RecordFieldsMap::Stream base/src/Record.cxx:1467-1492 and 1526, output branch *)
Definition entry_out (s : ws) (e : bytes * value) : ws := fst (field_out (fst (write_str s (fst e))) (snd e)).
Definition map_body (s : ws) (sz : N) (prefix : bytes) (m : fmap value) : ws * bool :=
  let sel := filter (fun e => match_prefix (fst e) prefix) m in
  verify_out
    (fold_left entry_out sel (wwrites s [le 4 (sz / 8); le 4 (lenN sel)]))
    (w_pos s) sz.

(* RecordFieldsMap::StoreSize base/src/Record.cxx:1450-1455 *)
Definition map_size (prefix : bytes) (m : fmap value) : N := w_pos (fst (map_body size0 0 prefix m)).

Definition map_out (s : ws) (prefix : bytes) (m : fmap value) : ws * bool :=
  map_body s (if w_real s then map_size prefix m else 0) prefix m.

(* Record::Stream base/src/Record.cxx:1680-1710, output branch *)
Definition record_body (s : ws) (sz : N) (r : record) : ws * bool :=
  let s1 := wwrites s [le 8 sz] in
  let s2 := fst (write_str s1 (fst r)) in
  let s3 := fst (map_out s2 [] (snd r)) in
  verify_out s3 (w_pos s) sz.
Definition record_size (r : record) : N := w_pos (fst (record_body size0 0 r)).
Definition record_out (s : ws) (r : record) : ws * bool :=
  record_body s (if w_real s then record_size r else 0) r.

(* Record::SaveToBuffer base/src/Record.cxx:1712-1733.  The buffer is created
   with a 32-bit size (BufferSize_t, base/dabc/Buffer.h:32).  [None]: the buffer
   is released.  Bytes of the buffer that were not written would be
   uninitialised; they are not part of the result (the theorems show there are
   none). *)
Definition save_record (r : record) : option bytes :=
  let (s, ok) := record_out (mem0 (record_size r mod 2^32)) r in
  if ok then Some (w_out s) else None.

(* ----------------------------------------------------------------- input -- *)

(* Outcome of reading: value, C++ exception leaving the reader, or an access to
   memory outside of the stream *)
Inductive out (A : Type) : Type := Done (a : A) | Throw | Oob.
Arguments Done {A} a.
Arguments Throw {A}.
Arguments Oob {A}.
Definition obind {A B} (x : out A) (f : A -> out B) : out B :=
  match x with Done a => f a | Throw => Throw | Oob => Oob end.
Notation "'od' x <- e ; f" := (obind e (fun x => f))
  (at level 200, x pattern, e at level 100, f at level 200, right associativity).

(* memstream in input mode: position and the bytes not yet consumed *)
Record rs : Type := mkR { r_pos : N; r_rest : bytes }.

(* memstream::shift base/src/Record.cxx:114-120 *)
Definition rshift (s : rs) (n : N) : rs * bool :=
  if lenN (r_rest s) <? n then (s, false) else (mkR (r_pos s + n) (dropN n (r_rest s)), true).

(* memstream::read base/src/Record.cxx:132-139: [None] when it fails, the stream
   is then unchanged and the target keeps its old content *)
Definition rread (s : rs) (n : N) : rs * option bytes :=
  if lenN (r_rest s) <? n then (s, None)
  else (mkR (r_pos s + n) (dropN n (r_rest s)), Some (takeN n (r_rest s))).

(* read of a k-byte number into a variable initialised with [d] *)
Definition rnum (s : rs) (k : nat) (d : N) : rs * N :=
  match rread s (N.of_nat k) with (s', Some b) => (s', unle b) | (s', None) => (s', d) end.

(* iostream::verify_size base/src/Record.cxx:33-65, input branch *)
Definition verify_in (s : rs) (pos sz : N) : rs * bool :=
  let actual := r_pos s - pos in
  if actual =? sz then (s, true)
  else if negb (pos mod 8 =? 0) then (s, false)
  else if negb (sz mod 8 =? 0) then (s, false)
  else if sz <? actual then (s, false)
  else rshift s (sz - actual).

(* characters up to the first zero byte, [None] when there is none *)
Fixpoint cstr (b : bytes) : option bytes :=
  match b with
  | [] => None
  | c :: r => if c =? 0 then Some [] else match cstr r with Some t => Some (c :: t) | None => None end
  end.

(* iostream::read_str base/src/Record.cxx:94-110.  The append of tmpbuf() scans
   for a zero byte without any bound; [tail] is the memory behind the stream the
   caller is ready to accept being read, scanning further is [Oob].  The result
   is the string (empty when it was not assigned), as read into a fresh
   std::string. *)
Definition read_str (tail : bytes) (s : rs) : out (rs * (bytes * bool)) :=
  let pos := r_pos s in
  let (s1, storesz) := rnum s 4 0 in
  let sz := storesz * 8 in
  if lenN (r_rest s1) <? sz then Done (s1, ([], false))
  else match cstr (r_rest s1 ++ tail) with
       | None => Oob
       | Some str => let (s2, ok) := verify_in s1 pos sz in Done (s2, (str, ok))
       end.

(* [n] C strings one after another inside a block *)
Fixpoint cstrs (n : nat) (b : bytes) : option (list bytes) :=
  match n with
  | O => Some []
  | S n' =>
    match cstr b with
    | None => None
    | Some s =>
      match cstrs n' (skipn (S (length s)) b) with
      | None => None
      | Some l => Some (s :: l)
      end
    end
  end.

(* [n] 64-bit numbers *)
Fixpoint words (n : nat) (b : bytes) : list N :=
  match n with O => [] | S n' => unle (firstn 8 b) :: words n' (skipn 8 b) end.

(* (storesz-1)*8, (storesz-2)*8 in uint32_t arithmetic *)
Definition sub32 (a b : N) : N := (a + 2^32 - b) mod 2^32.
Definition mul32 (a b : N) : N := (a * b) mod 2^32.

(* scalar of 8 bytes: when the read fails the field keeps what was there before *)
Definition scalar_in (s : rs) (f : N -> value) (k : N) : rs * value :=
  match rread s 8 with (s', Some b) => (s', f (unle b)) | (s', None) => (s', VJunk k) end.

(* array of 8-byte numbers, base/src/Record.cxx:413-427: operator new[] throws
   for a negative or excessive count; memory is assumed to be available
   otherwise.  When the count could not be read it is whatever the field held. *)
Definition array_in (s : rs) (f : list N -> value) (k : N) : out (rs * value) :=
  match rread s 8 with
  | (s1, None) => Done (s1, VJunk k)
  | (s1, Some b) =>
    let n := unle b in
    if 2^60 <=? n then Throw
    else match rread s1 (n * 8) with
         | (s2, None) => Done (s2, VJunk k)
         | (s2, Some d) => Done (s2, f (words (N.to_nat n) d))
         end
  end.

(* RecordField::Stream base/src/Record.cxx:395-452, input branch.  Buffer: the
   container gets (storesz-1)*8 bytes, SetTotalSize (base/src/Buffer.cxx:99-136,
   32-bit argument) throws when asked to extend, releases the buffer for size 0. *)
Definition field_in (s : rs) : out (rs * (value * bool)) :=
  let pos := r_pos s in
  let (s1, storesz) := rnum s 4 0 in
  let (s2, storekind) := rnum s1 4 0 in
  let sz := storesz * 8 in
  let k := N.land storekind 16777215 in
  od (s3, v) <-
    (if k =? 0 then Done (s2, VNone)
     else if k =? 1 then Done (scalar_in s2 VBool 1)
     else if k =? 2 then Done (scalar_in s2 VInt 2)
     else if k =? 3 then Done (scalar_in s2 VDatime 3)
     else if k =? 4 then Done (scalar_in s2 VUInt 4)
     else if k =? 5 then Done (scalar_in s2 VDouble 5)
     else if k =? 6 then array_in s2 VArrInt 6
     else if k =? 7 then array_in s2 VArrUInt 7
     else if k =? 8 then array_in s2 VArrDouble 8
     else if k =? 9 then
       Done (match rread s2 (mul32 (sub32 storesz 1) 8) with
             | (s', Some b) => (s', match cstr b with Some t => VStr t | None => VJunk 9 end)
             | (s', None) => (s', VJunk 9)
             end)
     else if k =? 10 then
       Done (match rread s2 8 with
             | (s', None) => (s', VJunk 10)
             | (s', Some c) =>
               match rread s' (mul32 (sub32 storesz 2) 8) with
               | (s'', None) => (s'', VJunk 10)
               | (s'', Some b) =>
                 (s'', if lenN b <? unle c then VJunk 10
                       else match cstrs (N.to_nat (unle c)) b with
                            | Some l => VArrStr l
                            | None => VJunk 10
                            end)
               end
             end)
     else if k =? 11 then
       let (s', bsz) := rnum s2 8 0 in
       let n := mul32 (sub32 storesz 1) 8 in
       let len := bsz mod 2^32 in
       match rread s' n with
       | (s'', d) =>
         if bsz =? n then Done (s'', match d with Some b => VBuf b | None => if n =? 0 then VBuf [] else VJunk 11 end)
         else if len =? 0 then Done (s'', VBuf [])
         else if n <? len then Throw
         else Done (s'', match d with Some b => VBuf (takeN len b) | None => VJunk 11 end)
       end
     else if k =? 12 then Done (s2, VRef)
     else Done (s2, VOther k));
  let (s4, ok) := verify_in s3 pos sz in
  Done (s4, (v, ok)).

(* std::map operations: operator[] with assignment, erase *)
Section MapOps.
Context {V : Type}.
Fixpoint mset (k : bytes) (v : V) (m : fmap V) : fmap V :=
  match m with
  | [] => [(k, v)]
  | (k', v') :: r =>
    match bcmp k k' with
    | Lt => (k, v) :: (k', v') :: r
    | Eq => (k, v) :: r
    | Gt => (k', v') :: mset k v r
    end
  end.
Definition mdel (k : bytes) (m : fmap V) : fmap V := filter (fun e => negb (beqb k (fst e))) m.
End MapOps.

Definition memb (k : bytes) (l : list bytes) : bool := existsb (beqb k) l.

(* loop at base/src/Record.cxx:1509-1515: [touched] are the names whose fTouched
   flag got set.  The results of read_str and of the field's Stream are ignored. *)
Fixpoint entries_in (tail : bytes) (n : nat) (s : rs) (m : fmap value) (touched : list bytes)
  : out (rs * (fmap value * list bytes)) :=
  match n with
  | O => Done (s, (m, touched))
  | S n' =>
    od (s1, (name, _)) <- read_str tail s;
    od (s2, (v, _)) <- field_in s1;
    entries_in tail n' s2 (mset name v m) (name :: touched)
  end.

(* RecordFieldsMap::Stream base/src/Record.cxx:1493-1527, input branch *)
Definition map_in (tail : bytes) (s : rs) (prefix : bytes) (m : fmap value) : out (rs * (fmap value * bool)) :=
  let pos := r_pos s in
  let (s1, storesz) := rnum s 4 0 in
  let (s2, num) := rnum s1 4 0 in
  let num := N.land num 16777215 in
  od (s3, (m1, touched)) <- entries_in tail (N.to_nat num) s2 m [];
  let m2 := filter (fun e => memb (fst e) touched || negb (match_prefix (fst e) prefix)) m1 in
  let (s4, ok) := verify_in s3 pos (storesz * 8) in
  Done (s4, (m2, ok)).

(* Record::Stream base/src/Record.cxx:1695-1710, input branch; a null record is
   the same as one without fields (CreateRecord) *)
Definition record_in (tail : bytes) (s : rs) (old : fmap value) : out (rs * (record * bool)) :=
  let pos := r_pos s in
  let (s1, sz) := rnum s 8 0 in
  od (s2, (name, _)) <- read_str tail s1;
  od (s3, (m, _)) <- map_in tail s2 [] old;
  let (s4, ok) := verify_in s3 pos sz in
  Done (s4, ((name, m), ok)).

(* Record::ReadFromBuffer base/src/Record.cxx:1735-1747: the buffer's first
   segment [b] is the stream; returns the final stream as well *)
Definition read_record (tail : bytes) (b : bytes) (old : fmap value) : out (rs * (record * bool)) :=
  record_in tail (mkR 0 b) old.

(* ----------------------------------------------------------- differences -- *)

(* A field with its fModified flag *)
Record field : Type := mkF { f_val : value; f_mod : bool }.

(* comparison of doubles as SetDouble does (base/src/Record.cxx:1114): NaN is
   different from everything, both zeros are equal *)
Definition is_nan (w : N) : bool :=
  (N.land w 9218868437227405312 =? 9218868437227405312) && negb (N.land w 4503599627370495 =? 0).
Definition deqb (a b : N) : bool :=
  negb (is_nan a) && negb (is_nan b) &&
  ((a =? b) || ((N.land a 9223372036854775807 =? 0) && (N.land b 9223372036854775807 =? 0))).

Definition neqlist (a b : list N) : bool := negb (beqb a b).

(* RecordField::SetValue base/src/Record.cxx:1030-1048 with the Set methods
   1051-1330: [f] is the field assigned to *)
Definition set_value (f : field) (src : value) : field :=
  let put v := mkF v true in
  match src, f_val f with
  | VNone, VNone => f
  | VBool w, VBool w' => let w1 := if w =? 0 then 0 else 1 in if w' =? w1 then f else put (VBool w1)
  | VBool w, _ => put (VBool (if w =? 0 then 0 else 1))
  | VInt w, VInt w' => if w' =? w then f else put src
  | VDatime w, VDatime w' => if w' =? w then f else put src
  | VUInt w, VUInt w' => if w' =? w then f else put src
  | VDouble w, VDouble w' => if deqb w' w then f else put src
  | VArrInt [], _ | VArrUInt [], _ | VArrDouble [], _ => f
  | VArrInt l, VArrInt l' => if beqb l' l then f else put src
  | VArrUInt l, VArrUInt l' => if beqb l' l then f else put src
  | VArrDouble l, VArrDouble l' => if beqb l' l then f else put src
  | VStr b, VStr b' => if beqb b' b then f else put src
  | VOther _, _ => f
  | _, _ => put src
  end.

(* "dabc:del" *)
Definition del_name : bytes := [100; 97; 98; 99; 58; 100; 101; 108].

Definition has {V} (k : bytes) (m : fmap V) : bool := match mget k m with Some _ => true | None => false end.

(* RecordFieldsMap::MakeAsDiffTo base/src/Record.cxx:1570-1584; Field() creates
   the field when needed.  SetStrVect (1162-1195) on whatever field of that name
   exists *)
Definition make_diff (this current : fmap field) : fmap field :=
  let step acc e :=
    let '(m, del) := acc in
    if negb (has (fst e) m) then (m, del ++ [fst e])
    else if negb (f_mod (snd e)) then (mdel (fst e) m, del)
    else (m, del) in
  let '(m, del) := fold_left step current (this, []) in
  match del with
  | [] => m
  | _ :: _ =>
    let old := match mget del_name m with Some f => f | None => mkF VNone false end in
    let nf := match f_val old with
              | VArrStr l => if (length l =? length del)%nat && forallb (fun p => beqb (fst p) (snd p)) (combine l del)
                             then old else mkF (VArrStr del) true
              | _ => mkF (VArrStr del) true
              end in
    mset del_name nf m
  end.

(* RecordField::AsStrVect base/src/Record.cxx:923-965 for the kinds that matter
   here: a string array; the other kinds are not modelled (taken as empty) *)
Definition as_strvect (v : value) : list bytes := match v with VArrStr l => l | _ => [] end.

(* RecordFieldsMap::ApplyDiff base/src/Record.cxx:1586-1600 *)
Definition apply_diff (this diff : fmap field) : fmap field :=
  fold_left (fun m e =>
    if negb (beqb (fst e) del_name) then
      let old := match mget (fst e) m with Some f => f | None => mkF VNone false end in
      mset (fst e) (mkF (f_val (set_value old (f_val (snd e)))) true) m
    else fold_left (fun m k => mdel k m) (as_strvect (f_val (snd e))) m)
    diff this.
