(* AfModel.v: log/filter.go, the asynchronous filters on log calls.  What fmt and encoding/json make of the arguments
   (getLogContent) and the caller's file and line are given with the item. *)
From Verif Require Import Base.

(* filter.go:41-46 FilterItem: level, entry point, content; the caller is left out *)
Record item := mkItem { i_level : nat; i_entry : nat; i_text : bs }.
(* 48-50 AsyncFilter: its channel.  [k_bad]: a closed channel, or a GetChannel that panics; a nil channel is one without room.
   Simplified: a send to an unbuffered channel with a waiting receiver is not modelled (such a channel never has room) *)
Record chan := mkChan { k_items : list item; k_cap : nat; k_bad : bool }.
(* the consumer (62-75): waiting, with an item before the read lock, or under the lock with the names still to serve *)
Inductive cons := CWait | CTook (it : item) | CServe (it : item) (rest : list bs).
(* [a_queue]: asyncFilterItemChan; [a_filters]: asyncFilters by name, with the channel's number.  Kept for the statements:
   [a_in] the items the queue took, [a_taken] those the consumer received, [a_sent] (name, channel, item) put in a channel,
   [a_read] (channel, item) received by the filters' own goroutines, [a_lost] items the full queue did not take,
   [a_miss] (name, item) not put in a channel *)
Record ast := mkA { a_cap : nat; a_queue : list item; a_filters : list (bs * nat); a_chans : list chan; a_cons : cons;
                    a_in : list item; a_taken : list item; a_sent : list (bs * nat * item); a_read : list (nat * item);
                    a_lost : list item; a_miss : list (bs * item) }.
Inductive aop :=
| ALog (it : item) (allow : list item)     (* a log call; [allow]: the messages the limiter lets through about a full queue *)
| ATake | ALock (order : list bs)          (* the consumer: receive; take the read lock and start on the filters, in the map's order *)
| AServe (allow : list item)               (* serve the next name *)
| AAdd (name : bs) (c : nat) | AChan (cap : nat) (bad : bool) | ARead (c : nat).
Definition room (s : ast) : bool := length (a_queue s) <? a_cap s.
(* 94-114 doAsyncFilters: a message about a full queue is itself a log call *)
Fixpoint doFilters (s : ast) (it : item) (allow : list item) : ast :=
  match a_filters s with
  | [] => s
  | _ => if room s
         then mkA (a_cap s) (a_queue s ++ [it]) (a_filters s) (a_chans s) (a_cons s) (a_in s ++ [it]) (a_taken s) (a_sent s) (a_read s) (a_lost s) (a_miss s)
         else let s' := mkA (a_cap s) (a_queue s) (a_filters s) (a_chans s) (a_cons s) (a_in s) (a_taken s) (a_sent s) (a_read s) (a_lost s ++ [it]) (a_miss s) in
              match allow with [] => s' | e :: r => doFilters s' e r end
  end.
Definition setCons (s : ast) (c : cons) : ast :=
  mkA (a_cap s) (a_queue s) (a_filters s) (a_chans s) c (a_in s) (a_taken s) (a_sent s) (a_read s) (a_lost s) (a_miss s).
(* 77-92 callAsyncFilter, up to the message about an item that could not be sent *)
Definition deliver (s : ast) (name : bs) (it : item) : ast * bool :=
  let miss := (mkA (a_cap s) (a_queue s) (a_filters s) (a_chans s) (a_cons s) (a_in s) (a_taken s) (a_sent s) (a_read s) (a_lost s) (a_miss s ++ [(name, it)]), false) in
  match aget bs_eqb (a_filters s) name with
  | None => (s, true)
  | Some c => match nth_error (a_chans s) c with
              | None => miss
              | Some k => if k_bad k then miss
                          else if length (k_items k) <? k_cap k
                          then (mkA (a_cap s) (a_queue s) (a_filters s) (list_set (a_chans s) c (mkChan (k_items k ++ [it]) (k_cap k) (k_bad k))) (a_cons s)
                                    (a_in s) (a_taken s) (a_sent s ++ [(name, c, it)]) (a_read s) (a_lost s) (a_miss s), true)
                          else miss
              end
  end.
Definition astep (s : ast) (o : aop) : option ast :=
  match o with
  | ALog it allow => Some (doFilters s it allow)
  | ATake => match a_cons s, a_queue s with
             | CWait, it :: q => Some (mkA (a_cap s) q (a_filters s) (a_chans s) (CTook it) (a_in s) (a_taken s ++ [it]) (a_sent s) (a_read s) (a_lost s) (a_miss s))
             | _, _ => None
             end
  | ALock order => match a_cons s with CTook it => Some (setCons s (match order with [] => CWait | _ => CServe it order end)) | _ => None end
  | AServe allow => match a_cons s with
                    | CServe it (n :: r) =>
                        let '(s1, ok) := deliver s n it in
                        let s2 := if ok then s1 else match allow with [] => s1 | e :: es => doFilters s1 e es end in
                        Some (setCons s2 (match r with [] => CWait | _ => CServe it r end))
                    | _ => None
                    end
  | AAdd name c => match a_cons s with      (* 56-60: needs the write lock *)
                   | CServe _ _ => None
                   | _ => if c <? length (a_chans s)
                          then Some (mkA (a_cap s) (a_queue s) (aset bs_eqb (a_filters s) name c) (a_chans s) (a_cons s) (a_in s) (a_taken s) (a_sent s) (a_read s) (a_lost s) (a_miss s))
                          else None
                   end
  | AChan cap bad => Some (mkA (a_cap s) (a_queue s) (a_filters s) (a_chans s ++ [mkChan [] cap bad]) (a_cons s) (a_in s) (a_taken s) (a_sent s) (a_read s) (a_lost s) (a_miss s))
  | ARead c => match nth_error (a_chans s) c with
               | Some k => match k_items k with
                           | it :: r => Some (mkA (a_cap s) (a_queue s) (a_filters s) (list_set (a_chans s) c (mkChan r (k_cap k) (k_bad k))) (a_cons s)
                                                  (a_in s) (a_taken s) (a_sent s) (a_read s ++ [(c, it)]) (a_lost s) (a_miss s))
                           | [] => None
                           end
               | None => None
               end
  end.
(* the order the consumer serves is one of the registered names *)
Definition okOp (s : ast) (o : aop) : Prop :=
  match o with ALock order => NoDup order /\ forall n, In n order <-> In n (akeys (a_filters s)) | _ => True end.
Inductive aruns : ast -> list aop -> ast -> Prop :=
| ar_nil s : aruns s [] s
| ar_step s o s1 os s2 : okOp s o -> astep s o = Some s1 -> aruns s1 os s2 -> aruns s (o :: os) s2.
Definition ainit (cap : nat) : ast := mkA cap [] [] [] CWait [] [] [] [] [] [].
