#!/usr/bin/env python3
# Emits the state record and its field setters (pure boilerplate) used in State.v.
F=[("cap","option nat"),("txc","nat"),("rxc","nat"),("uq","list umsg"),("ws1","list nat"),("wsA","list nat"),
("wrx","list nat"),("bqs","list nat"),("tail","nat"),
("cells1","list (wcell umsg)"),("cellsA","list (wcell bmsg)"),("ones","list one"),("bqueues","list bqueue"),
("reps","list rep"),("lsts","list listener"),
("addrs","list addr"),("hols","list holder"),("sfs","list sfut"),("rcvs","list rcv"),("jhs","list jhandle"),
("thr","list (list micro)"),("nbm","nat"),("nwk","nat"),("wakes","list nat"),("log","list ev")]
print("(** Field setters (boilerplate, generated by tools/gen_state.py; they model nothing). *)")
for n,t in F:
    body="; ".join("%s := %s"%(m, "v" if m==n else "%s s"%m) for m,_ in F)
    print("Definition set_%s (v : %s) (s : state) : state :=\n  {| %s |}."%(n,t,body))
