(* mbs::CombinerModule, plugins/mbs/src/CombinerModule.cxx and mbs/CombinerModule.h.
   Modelled: ShiftToNextBuffer, ShiftToNextEvent, BuildEvent, FlushBuffer and the flush timer.
   The read iterators are abstracted to the lists of events they deliver (C45), the write iterator
   to the events written and the room left (Iterator.cxx:298-301); a buffer under iteration stays
   in the queue of its port as in the code.  Simplified: events have at least their header; an
   event without subevents on an input with the number in a subevent counts as having no number
   (the code looks at the memory behind it); sizes are not cut to 32 bits.
   Not modelled: information texts and rates, commands (the configuration of the inputs is fixed),
   the start of the module.  Times, connection state, buffers from the memory pool and the state
   of the outputs are inputs. *)
From Verif Require Import Common ListFacts Bytes MbsSpec MCombSpec.
Local Open Scope N_scope.

(* configuration, CombinerModule.cxx:33-45 *)
Record conf := mkF {
  f_full : bool;   (* fBuildCompleteEvents *)
  f_chk : bool;    (* fCheckSubIds *)
  f_mask : N;      (* fEventIdMask *)
  f_tol : N;       (* fEventIdTolerance *)
  f_lim : Z;       (* fSpecialTriggerLimit *)
  f_excl : N       (* fExcludeTime *)
}.

(* a buffer: its events, or [None] if it is not of the MBS type *)
Definition buf := option (list mevent).

(* one input: InputCfg, CombinerModule.h:36-115, with the read iterator and the port queue *)
Record inp := mkI {
  p_cfg : icfg;
  p_cap : nat;                            (* capacity of the queue *)
  p_conn : bool;                          (* IsInputConnected *)
  p_queue : list buf;                     (* buffers in the queue; the first is the one under iteration *)
  p_it : option (mevent * list mevent);   (* event at the iterator, and what follows in the buffer *)
  p_num : N;                              (* curr_evnt_num *)
  p_special : bool;                       (* curr_evnt_special *)
  p_valid : bool;                         (* valid *)
  p_sel : bool;                           (* selected *)
  p_last : N;                             (* last_valid_tm *)
  p_done : list mevent                    (* not in the code: events which the input has left *)
}.
Definition inp_new (x : icfg * nat) : inp := mkI (fst x) (snd x) true [] None 0 false false false 0 [].

Definition set_sel (b : bool) (p : inp) : inp :=
  mkI (p_cfg p) (p_cap p) (p_conn p) (p_queue p) (p_it p) (p_num p) (p_special p) (p_valid p) b (p_last p) (p_done p).
Definition set_last (t : N) (p : inp) : inp :=
  mkI (p_cfg p) (p_cap p) (p_conn p) (p_queue p) (p_it p) (p_num p) (p_special p) (p_valid p) (p_sel p) t (p_done p).
Definition set_conn (b : bool) (p : inp) : inp :=
  mkI (p_cfg p) (p_cap p) b (p_queue p) (p_it p) (p_num p) (p_special p) (p_valid p) (p_sel p) (p_last p) (p_done p).
Definition add_buf (b : buf) (p : inp) : inp :=
  mkI (p_cfg p) (p_cap p) (p_conn p) (p_queue p ++ [b]) (p_it p) (p_num p) (p_special p) (p_valid p) (p_sel p) (p_last p) (p_done p).

(* the 32-bit word at [shift] of the data of the first subevent with the id [src],
   CombinerModule.cxx:240-261 *)
Definition sub_number (g : icfg) (e : mevent) : option N :=
  match find (fun x => ms_id x =? g_src g) (me_subs e) with
  | Some x => if g_shift g + 4 <=? lenN (ms_raw x) then Some (unle (firstn 4 (skipn (N.to_nat (g_shift g)) (ms_raw x)))) else None
  | None => None
  end.
(* number of an event and whether it is special, CombinerModule.cxx:221-262; [None]: not found *)
Definition event_number (c : conf) (g : icfg) (e : mevent) : option (N * bool) :=
  if g_mbs g && (f_lim c <=? trig_no e)%Z then Some (me_num e, true)
  else if g_real g then Some (N.land (me_num e) (f_mask c), false)
  else if g_nonum g then Some (0, false)
  else match sub_number g e with Some w => Some (N.land w (f_mask c), false) | None => None end.

(* the loop of ShiftToNextEvent, CombinerModule.cxx:198-263, inside a buffer and over the queue:
   events passed over, and the event found with what follows it *)
Fixpoint find_ev (c : conf) (g : icfg) (l : list mevent) : list mevent * option (mevent * list mevent * N * bool) :=
  match l with
  | [] => ([], None)
  | e :: l =>
    match event_number c g e with
    | Some (n, b) => ([], Some (e, l, n, b))
    | None => let '(sk, r) := find_ev c g l in (e :: sk, r)
    end
  end.
Fixpoint find_buf (c : conf) (g : icfg) (q : list buf) : list mevent * option (mevent * list mevent * N * bool) * list buf :=
  match q with
  | [] => ([], None, [])
  | None :: q => find_buf c g q
  | Some es :: q' =>
    match find_ev c g es with
    | (sk, Some r) => (sk, Some r, q)
    | (sk, None) => let '(sk', r, q'') := find_buf c g q' in (sk ++ sk', r, q'')
    end
  end.
(* ShiftToNextEvent, CombinerModule.cxx:189-271 *)
Definition shift_ev (c : conf) (p : inp) : inp * bool :=
  let g := p_cfg p in
  let '(sk, r, q) :=
    match p_it p with
    | Some (e, rest) =>
      match find_ev c g rest with
      | (sk, Some r) => (e :: sk, Some r, p_queue p)
      | (sk, None) => let '(sk', r, q) := find_buf c g (tl (p_queue p)) in (e :: sk ++ sk', r, q)
      end
    | None => find_buf c g (p_queue p)
    end in
  match r with
  | Some (e, rest, n, b) => (mkI g (p_cap p) (p_conn p) q (Some (e, rest)) n b true (p_sel p) (p_last p) (p_done p ++ sk), true)
  | None => (mkI g (p_cap p) (p_conn p) q None 0 false false (p_sel p) (p_last p) (p_done p ++ sk), false)
  end.

(* ShiftToNextBuffer, CombinerModule.cxx:177-187 *)
Definition events_of (b : buf) : list mevent := match b with Some l => l | None => [] end.
Definition in_buffer (p : inp) : list mevent :=
  match p_it p with
  | Some (e, rest) => e :: rest
  | None => match p_queue p with b :: _ => events_of b | [] => [] end
  end.
Definition shift_buf (p : inp) : inp :=
  mkI (p_cfg p) (p_cap p) (p_conn p) (tl (p_queue p)) None 0 false false (p_sel p) (p_last p) (p_done p ++ in_buffer p).

(* the module: inputs, the output buffer with its size and the events in it, what was sent,
   fFlushFlag, whether StopApplication was called; [s_made] is not in the code: the groups from
   which events were made *)
Record st := mkS { s_ins : list inp; s_out : option (N * list mevent); s_sent : list (list mevent);
                   s_flag : bool; s_stop : bool; s_made : list group }.
Definition init (cfgs : list (icfg * nat)) : st := mkS (map inp_new cfgs) None [] false false [].
Definition set_ins (l : list inp) (s : st) : st := mkS l (s_out s) (s_sent s) (s_flag s) (s_stop s) (s_made s).
Definition set_stop (s : st) : st := mkS (s_ins s) (s_out s) (s_sent s) (s_flag s) true (s_made s).

(* what a call sees: the time; CanSendToAllOutputs in the first and in the second FlushBuffer; the
   size of the buffer which the pool gives *)
Record env := mkE { e_now : N; e_send1 : bool; e_send2 : bool; e_take : option N }.

Definition used_size (l : list mevent) : N := fold_right (fun e a => mevent_size e + a) 0 l.
(* IsPlaceForEvent, Iterator.cxx:298-301 *)
Definition place (o : N * list mevent) (sz : N) : bool := used_size (snd o) + 16 + sz <=? fst o.

(* FlushBuffer, CombinerModule.cxx:140-155 *)
Definition flush (can : bool) (s : st) : st * bool :=
  match s_out s with
  | Some (_, e :: l) => if can then (mkS (s_ins s) None (s_sent s ++ [e :: l]) false (s_stop s) (s_made s), true) else (s, false)
  | _ => (s, false)
  end.

(* lines 333 and 421 *)
Definition late (c : conf) (now : N) (p : inp) : bool := p_last p + f_excl c <? now.
Definition qfull (p : inp) : bool := (p_cap p <=? length (p_queue p))%nat.

(* inputs emptied while another one is missing, CombinerModule.cxx:302-309 *)
Definition clean (p : inp) : inp :=
  if qfull p || g_nonum (p_cfg p) && (p_cap p / 2 <? length (p_queue p))%nat then shift_buf p else p.

(* first loop over the inputs, CombinerModule.cxx:320-339: the input, and whether to go on *)
Definition prep (c : conf) (now : N) (mostly_full : bool) (p : inp) : inp * bool :=
  let p0 := set_last (if p_last p =? 0 then now else p_last p) (set_sel false p) in
  match p_it p0 with
  | Some _ => (p0, true)
  | None =>
    let '(p1, ok) := shift_ev c p0 in
    if ok then (set_last now p1, true)
    else (p1, g_nonum (p_cfg p) || mostly_full && negb (f_full c) || g_opt (p_cfg p) && late c now p1)
  end.
Fixpoint prep_all (c : conf) (now : N) (mf : bool) (l : list inp) : list inp * bool :=
  match l with
  | [] => ([], true)
  | p :: r =>
    let '(p', ok) := prep c now mf p in
    if ok then let '(r', ok') := prep_all c now mf r in (p' :: r', ok') else (p' :: r, false)
  end.
(* inputs which take part in the search for the number, CombinerModule.cxx:341-360 *)
Definition counted (p : inp) : bool := negb (g_nonum (p_cfg p)) && match p_it p with Some _ => true | None => false end.
Definition nums (l : list inp) : list N := map p_num (filter counted l).
Fixpoint find_special (k : nat) (l : list inp) : option nat :=
  match l with [] => None | p :: r => if counted p && p_special p then Some k else find_special (S k) r end.

(* selection, CombinerModule.cxx:371, 389-391 *)
Fixpoint mark (k : nat) (l : list inp) {struct l} : list inp :=
  match l with
  | [] => []
  | p :: r => match k with O => set_sel true p :: r | S k => p :: mark k r end
  end.
Definition select (b : N) (l : list inp) : list inp :=
  map (fun p => if p_valid p && ((p_num p =? b) || g_nonum (p_cfg p)) then set_sel true p else p) l.
(* number to build and the difference, CombinerModule.cxx:345-351, 365-380 *)
Definition pick (mask n : N) (ns : list N) : N * N :=
  let lo := fold_left N.min ns n in
  let hi := fold_left N.max ns n in
  let d := hi - lo in
  if mask / 2 <? d then (hi, mask - d + 1) else (lo, d).

(* an input which could have data for the event but was not selected, CombinerModule.cxx:414-423 *)
Definition missed (c : conf) (now : N) (p : inp) : bool :=
  negb (p_sel p) && negb (g_nonum (p_cfg p)) && negb (g_opt (p_cfg p) && (p_valid p || late c now p)).

(* lines 439, 511-531: events at the selected inputs; without an event the code dereferences a null pointer *)
Fixpoint group_of (l : list inp) : res group :=
  match l with
  | [] => Ok []
  | p :: r =>
    do g <- group_of r;
    if p_sel p then match p_it p with Some (e, _) => Ok (Some e :: g) | None => UB end else Ok (None :: g)
  end.
(* input from which the header is copied, CombinerModule.cxx:432-437, 516, 533 *)
Definition header (l : list inp) : res mevent :=
  match find (fun p => p_sel p && mandatory (p_cfg p) && g_mbs (p_cfg p)) l with
  | Some p => match p_it p with Some (e, _) => Ok e | None => UB end
  | None => match find p_sel l with
            | Some p => match p_it p with Some (e, _) => Ok e | None => UB end
            | None => UB
            end
  end.
Definition group_subs (g : group) : list msub := concat (map me_subs (members g)).
(* lines 441-449 *)
Fixpoint has_dup (l : list N) : bool :=
  match l with [] => false | x :: l => existsb (N.eqb x) l || has_dup l end.

(* going to the next event on the selected inputs, CombinerModule.cxx:548-555 *)
Definition finish (c : conf) (now : N) (skip : bool) (l : list inp) : list inp :=
  map (fun p => if p_sel p && negb (skip && g_nonum (p_cfg p))
                then let '(p', ok) := shift_ev c p in if ok then set_last now p' else p' else p) l.

(* writing the event, CombinerModule.cxx:480-545; the flag is false when BuildEvent returns false *)
Definition write (e : env) (l : list inp) (g : group) (s : st) : res (st * bool) :=
  let sz := lenN (enc_msubs (group_subs g)) in
  let '(s, ok) := match s_out s with
                  | Some o => if place o sz then (s, true) else flush (e_send1 e) s
                  | None => (s, true)
                  end in
  if negb ok then Ok (s, false) else
  let '(s, ok) := match s_out s with
                  | Some _ => (s, true)
                  | None => match e_take e with
                            | None => (s, false)
                            | Some cap => if cap <? 28 then (set_stop s, false)
                                          else (mkS (s_ins s) (Some (cap, [])) (s_sent s) (s_flag s) (s_stop s) (s_made s), true)
                            end
                  end in
  if negb ok then Ok (s, false) else
  match s_out s with
  | None => UB
  | Some (cap, evs) =>
    if negb (place (cap, evs) sz) then Ok (s, true)
    else
      do h <- header l;
      let out := (cap, evs ++ [mkME mbs_type (me_trig h) (me_num h) (group_subs g)]) in
      let s := mkS (s_ins s) (Some out) (s_sent s) (s_flag s) (s_stop s) (s_made s ++ [g]) in
      Ok (if place out 0 then s else fst (flush (e_send2 e) s), true)
  end.

(* BuildEvent, CombinerModule.cxx:275-560 *)
Definition build (c : conf) (e : env) (s : st) : res (st * bool) :=
  let ins := s_ins s in
  if existsb (fun p => mandatory (p_cfg p) && negb (p_conn p)) ins && f_full c
  then Ok (set_ins (map clean ins) s, false)
  else
  let mf := existsb (fun p => mandatory (p_cfg p) && qfull p) ins in
  let '(l, ok) := prep_all c (e_now e) mf ins in
  if negb ok then Ok (set_ins l s, false) else
  match nums l with
  | [] => Ok (set_ins l s, false)
  | n :: ns =>
    let spec := find_special 0 l in
    let choice :=
      match spec with
      | Some k => Some (mark k l)
      | None => let '(b, d) := pick (f_mask c) n ns in
                if (0 <? f_tol c) && (f_tol c <? d) then None else Some (select b l)
      end in
    match choice with
    | None => Ok (set_stop (set_ins l s), false)
    | Some l =>
      let s := set_ins l s in
      let nospec := match spec with Some _ => false | None => true end in
      do g <- group_of l;
      if (f_full c && existsb (missed c (e_now e)) l || f_chk c && has_dup (map ms_id (group_subs g))) && nospec
      then Ok (set_ins (finish c (e_now e) true l) s, true)
      else
        do w <- write e l g s;
        let '(s, ok) := w in
        if ok then Ok (set_ins (finish c (e_now e) false l) s, true) else Ok (s, false)
    end
  end.

(* ProcessTimerEvent, CombinerModule.cxx:130-138; [es]: what the calls of BuildEvent see *)
Fixpoint builds (c : conf) (es : list env) (s : st) : res st :=
  match es with
  | [] => Ok s
  | e :: es => do r <- build c e s; if snd r then builds c es (fst r) else Ok (fst r)
  end.
Definition set_flag (s : st) : st := mkS (s_ins s) (s_out s) (s_sent s) true (s_stop s) (s_made s).
Definition timer (c : conf) (es : list env) (can : bool) (s : st) : res st :=
  if s_flag s
  then do s <- builds c (firstn 100 es) s; Ok (set_flag (fst (flush can s)))
  else Ok (set_flag s).

(* runs: buffers arrive, inputs are disconnected and connected, BuildEvent is called from
   ProcessRecv, ProcessSend and BeforeModuleStart, the timer fires *)
Inductive op := Push (i : nat) (b : buf) | Conn (i : nat) (on : bool) | Build (e : env) | Timer (es : list env) (can : bool).
Fixpoint at_input (i : nat) (f : inp -> inp) (l : list inp) {struct l} : list inp :=
  match l with [] => [] | p :: r => match i with O => f p :: r | S i => p :: at_input i f r end end.
Definition step (c : conf) (s : st) (o : op) : res st :=
  match o with
  | Push i b => Ok (set_ins (at_input i (add_buf b) (s_ins s)) s)
  | Conn i on => Ok (set_ins (at_input i (set_conn on) (s_ins s)) s)
  | Build e => do r <- build c e s; Ok (fst r)
  | Timer es can => timer c es can s
  end.
Fixpoint run (c : conf) (s : st) (l : list op) : res st :=
  match l with [] => Ok s | o :: l => do s <- step c s o; run c s l end.

(* what the module has produced: events sent, and in the buffer being filled *)
Definition in_out (s : st) : list mevent := match s_out s with Some (_, l) => l | None => [] end.
Definition produced (s : st) : list mevent := concat (s_sent s) ++ in_out s.
(* what is waiting at an input *)
Definition pending (p : inp) : list mevent :=
  match p_it p with
  | Some (e, rest) => e :: rest ++ concat (map events_of (tl (p_queue p)))
  | None => concat (map events_of (p_queue p))
  end.
(* what arrived at input [i] *)
Fixpoint received (i : nat) (l : list op) : list mevent :=
  match l with
  | [] => []
  | Push j (Some b) :: l => if Nat.eqb j i then b ++ received i l else received i l
  | _ :: l => received i l
  end.
