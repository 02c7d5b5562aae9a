(* Specification for the MBS event builder: how its inputs are configured, which number an event
   carries, and which event is made from a group of events of several inputs. *)
From Verif Require Import Common ListFacts Bytes MbsSpec.
Local Open Scope N_scope.

(* How an input is used: its events come from MBS, their number is in the event header, they have
   no number, the input is optional; where to find the number otherwise: the full id of the
   subevent and the position in its data. *)
Record icfg := mkC { g_mbs : bool; g_real : bool; g_nonum : bool; g_opt : bool; g_src : N; g_shift : N }.
Definition mandatory (g : icfg) : bool := negb (g_opt g) && negb (g_nonum g).

(* an ordinary input: the number is in the event header, events without it do not occur *)
Definition plain (g : icfg) : Prop := g_real g = true /\ g_nonum g = false /\ g_opt g = false.

(* the trigger number: upper half of the trigger word, signed *)
Definition trig_no (e : mevent) : Z :=
  let t := (Z.of_N (me_trig e) / 2^16)%Z in if (t <? 2^15)%Z then t else (t - 2^16)%Z.

(* [e] is an event of the start or end of a spill or of the data taking; [lim]: smallest such
   trigger number *)
Definition special (lim : Z) (g : icfg) (e : mevent) : Prop := g_mbs g = true /\ (lim <= trig_no e)%Z.

Definition is_special (lim : Z) (g : icfg) (e : mevent) : bool := g_mbs g && (lim <=? trig_no e)%Z.

(* [e] carries the number [n], of which only the bits of [mask] are used *)
Definition carries (mask : N) (g : icfg) (e : mevent) (n : N) : Prop :=
  if g_real g then n = N.land (me_num e) mask
  else exists before x after a w b,
    me_subs e = before ++ x :: after /\ Forall (fun y => ms_id y <> g_src g) before /\ ms_id x = g_src g /\
    ms_raw x = a ++ w ++ b /\ lenN a = g_shift g /\ length w = 4%nat /\ n = N.land (unle w) mask.

(* an event which the input can use *)
Definition usable (mask : N) (lim : Z) (g : icfg) (e : mevent) : Prop :=
  special lim g e \/ g_nonum g = true \/ exists n, carries mask g e n.

(* A group: for every input the event taken from it, or none. *)
Definition group := list (option mevent).
Definition member (g : group) (i : nat) (e : mevent) : Prop := nth_error g i = Some (Some e).
Definition members (g : group) : list mevent := concat (map (fun o => match o with Some e => [e] | None => [] end) g).

(* The event made from a group: the subevents of all members; trigger word and number are those of
   the first member from a mandatory MBS input, or else of the first member. *)
Definition head_from (cfgs : list icfg) (g : group) (e : mevent) : Prop :=
  (exists i c, nth_error cfgs i = Some c /\ mandatory c && g_mbs c = true /\ member g i e /\
     forall j c' e', (j < i)%nat -> nth_error cfgs j = Some c' -> member g j e' -> mandatory c' && g_mbs c' = false) \/
  ((forall j c' e', nth_error cfgs j = Some c' -> member g j e' -> mandatory c' && g_mbs c' = false) /\
   exists r, members g = e :: r).
Definition makes (cfgs : list icfg) (g : group) (out : mevent) : Prop :=
  exists e, head_from cfgs g e /\
    out = mkME mbs_type (me_trig e) (me_num e) (concat (map me_subs (members g))).

(* what the groups took from input [i] *)
Definition from_input (i : nat) (gs : list group) : list mevent :=
  concat (map (fun g => match nth_error g i with Some (Some e) => [e] | _ => [] end) gs).

(* [l] without some of its elements, in the same order *)
Inductive sublist {A} : list A -> list A -> Prop :=
| sl_nil : sublist [] []
| sl_skip x l m : sublist l m -> sublist l (x :: m)
| sl_keep x l m : sublist l m -> sublist (x :: l) (x :: m).

(* A legal group: one special event alone; or events which carry the same number, together with
   events of inputs without numbers.  With [full], no mandatory input is missing. *)
Definition legal (full : bool) (mask : N) (lim : Z) (cfgs : list icfg) (g : group) : Prop :=
  length g = length cfgs /\
  ((exists i c e, nth_error cfgs i = Some c /\ member g i e /\ special lim c e /\ members g = [e]) \/
   ((exists n,
      (exists i c e, nth_error cfgs i = Some c /\ member g i e /\ g_nonum c = false) /\
      (forall i c e, nth_error cfgs i = Some c -> member g i e -> g_nonum c = true \/ carries mask c e n)) /\
    (full = true -> forall i c, nth_error cfgs i = Some c -> mandatory c = true -> exists e, member g i e))).

(* Numbers of one input in the long run: [L] is the number without overflow; it grows from event
   to event by at most [G], starting behind [base]. *)
Fixpoint steady (L : mevent -> N) (G base : N) (l : list mevent) : Prop :=
  match l with [] => True | e :: l => base < L e /\ L e <= base + G /\ steady L G (L e) l end.

(* all subevent ids of the group differ *)
Definition ids_differ (g : group) : Prop := NoDup (map ms_id (concat (map me_subs (members g)))).
