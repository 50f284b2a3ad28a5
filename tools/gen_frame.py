#!/usr/bin/env python3
# Emits Frame.v: for every model function and every state field it does not touch,
# a lemma saying so (collected in one rewrite database per field).
F="cap txc rxc uq ws1 wsA wrx bqs tail cells1 cellsA ones bqueues reps lsts addrs hols sfs rcvs jhs thr nbm nwk wakes log".split()
fx=[ # name, binders, call term, touched, kind
("emit","e s","emit e s","log","p"),
("wake","w s","wake w s","wakes","p"),
("close_reply","m s","close_reply m s","reps wakes","p"),
("drop_umsg","y m s","drop_umsg y m s","reps wakes log","p"),
("drop_umsgs","y l s","drop_umsgs y l s","reps wakes log","f"),
("close_handle1","s c","close_handle1 s c","cells1 reps wakes log","p"),
("close_handleA","s c","close_handleA s c","cellsA wakes","p"),
("close_handles1","l s","fold_left close_handle1 l s","cells1 reps wakes log","f"),
("close_handlesA","l s","fold_left close_handleA l s","cellsA wakes","f"),
("close_one","s c","close_one s c","ones wakes","p"),
("close_ones","l s","fold_left close_one l s","ones wakes","f"),
("one_send","o c s","fst (one_send o c s)","ones wakes","p"),
("one_sends","l c s","fold_left (λ s o, fst (one_send o c s)) l s","ones wakes","f"),
("fulfill","ws m s","fst (fulfill ws m s)","ones wakes wrx","i"),
("try_fulfill_receiver","m s","fst (try_fulfill_receiver m s)","ones wakes wrx","p"),
("take_waiting1","s","fst (take_waiting1 s)","cells1 ws1 wakes log","p"),
("take_waitingA","s","fst (take_waitingA s)","cellsA wsA wakes","p"),
("push_unicast","m s","push_unicast m s","uq","p"),
("pop_unicast","s","fst (pop_unicast s)","uq cells1 ws1 wakes log","p"),
("bq_put","b h s","bq_put b h s","bqueues","p"),
("bq_puts","m l s","fold_left (λ s b, bq_put b (heap_push bm_prio m (bq_get s b)) s) l s","bqueues","f"),
("send_broadcast","m s","send_broadcast m s","bqueues bqs ones wakes wrx tail log","p"),
("pop_broadcast","b s","fst (pop_broadcast b s)","bqueues tail cellsA wsA wakes bqs ones wrx log","p"),
("set_hst","r x s","set_hst r x s","hols","p"),
("set_sst","f x s","set_sst f x s","sfs","p"),
("deliver","r a s","deliver r a s","hols log","p"),
("send_out","f x o s","send_out f x o s","sfs log","p"),
("poll_reply","m w s","fst (poll_reply m w s)","reps","p"),
("wake_lsts","l s","fold_left (λ s l, if ls_notified l then s else wake (ls_wk l) s) l s","wakes","f"),
("exec_rx_shutdown","s","exec_rx_shutdown s","lsts wakes uq reps log bqs cells1 ws1 wsA cellsA","p"),
("free_chan","s","free_chan s","cells1 reps wakes log cellsA ws1 wsA ones wrx bqs uq","p"),
("call","p s","call p s","thr","p"),
("put_sf","f x s","put_sf f x s","sfs","p"),
("add_addr","k e s","add_addr k e s","addrs txc","p"),
]
print("""(** Which fields each model function leaves alone (generated by tools/gen_frame.py;
    pure boilerplate). *)
From stdpp Require Import base numbers list.
From Verif Require Import Prio Heap State Model.

Lemma fold_left_proj {S X B} (p : S → B) (g : S → X → S) l s :
  (∀ s x, p (g s x) = p s) → p (fold_left g l s) = p s.
Proof. intros H. revert s; induction l as [|x l IH]; intros s; simpl; [done|]. by rewrite IH, H. Qed.
""")
for f in F:
    g="log" if f=="thr" else "thr"
    print("Lemma base_%s v s : %s (set_%s v s) = %s s.\nProof. done. Qed.\n#[export] Hint Rewrite base_%s : fr_%s."%(f,f,g,f,f,f))
print()
for name,b,t,touched,kind in fx:
    touched=touched.split()
    assert all(x in F for x in touched),(name)
    fn=t.replace("fst (","").split()[0]
    for f in F:
        if f in touched: continue
        if kind=="p":
            pf="unfold %s; repeat (case_match; simplify_eq/=); simpl; autorewrite with fr_%s; simpl; autorewrite with fr_%s; done."%(fn,f,f)
            if fn in("exec_rx_shutdown","send_broadcast","free_chan"):
                pf="unfold %s; cbv zeta; repeat (progress (simpl; autorewrite with fr_%s)); done."%(fn,f)
            if fn in("try_fulfill_receiver",): pf="apply fulfill_%s."%f
            if fn in("pop_unicast","pop_broadcast"):
                tk="take_waiting1" if fn=="pop_unicast" else "take_waitingA"
                pf=("unfold %s; destruct (heap_pop _ _) as [[??]|]; [|done]; cbv zeta; case_match; [simpl; autorewrite with fr_%s; done|]; "
                    "match goal with |- context [%s ?x] => pose proof (%s_%s x) as HH; destruct (%s x) as [? [?|]] end; "
                    "simpl in *; autorewrite with fr_%s in *; simpl in *; autorewrite with fr_%s in *; congruence.")%(fn,f,tk,tk,f,tk,f,f)
        elif kind=="f":
            un="unfold drop_umsgs; " if fn=="drop_umsgs" else ""
            pf=un+"apply fold_left_proj; intros; try case_match; autorewrite with fr_%s; done."%f
        elif kind=="i":
            pf="revert s; induction ws as [|o ws IH]; intros s; [done|]; simpl; pose proof (one_send_%s o (CNewMsg m) s) as H1; destruct (one_send o (CNewMsg m) s) as [s1 []]; simpl in *; [done|]; rewrite IH; done."%f
        print("Lemma %s_%s %s : %s (%s) = %s s.\nProof. %s Qed."%(name,f,b,f,t,f,pf))
        print("#[export] Hint Rewrite %s_%s : fr_%s."%(name,f,f))
    print()
