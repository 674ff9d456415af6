#!/usr/bin/env python3
"""Transcribes the registration lines of /repo/ofpstr/oxm.py:910-1289 (read as
text) into the two association lists of OxmTables.v."""
import re
src=open("/repo/ofpstr/oxm.py").read().split("\n")
def key(k):
    for p,c in (("OXM_OF_","OFB"),("NXM_OF_","NX0"),("NXM_NX_","NX1"),("STROXM_BASIC_","STR"),("STROXM_RADIOTAP_","STR")):
        if k.startswith(p): return '%s "%s"'%(c,k[len(p):].lower())
    raise Exception(k)
packs={"<3B":"[lB; lB; lB]","<IHBB":"[lI; lH; lB; lB]"}
def b2s(e):
    m=re.match(r'(\w+)_bin2str(?:\((.*)\))?$',e); n,a=m.group(1),m.group(2)
    if n in("uint","le","mac","ipv4","ipv6","hex","s8"): return "B%s $%s"%(n,a)
    if n=="port":
        m=re.match(r'("\w+")(?:, fmt="(.*)")?$',a); return "Bport $%s %d"%(m.group(1),2 if m.group(2)=="!H" else 4)
    if n=="comp":
        m=re.match(r'("\w+"), "(.*?)", "(.*)"\.split\(\)$',a)
        return "Bcomp $%s %s [%s]"%(m.group(1),packs[m.group(2)],"; ".join('$"%s"'%x for x in m.group(3).split()))
    return "B"+n
def s2b(e):
    m=re.match(r'(\w+)_str2bin(?:\((.*)\))?$',e); n,a=m.group(1),m.group(2)
    if n in("uint","le"):
        f,s=a.split(", "); return "S%s (%s) %s"%(n,key(f),s)
    if n in("mac","ipv4","ipv6","hex","s8"): return "S%s (%s)"%(n,key(a))
    if n=="port":
        m=re.match(r'(\w+)(?:, fmt="(.*)")?$',a); return "Sport (%s) %d"%(key(m.group(1)),2 if m.group(2)=="!H" else 4)
    if n=="comp":
        f,p=a.split(", "); return "Scomp (%s) %s"%(key(f),packs[p.strip('"')])
    return "S"+n
B=[];S=[]
i=909
while i<1289:
    l=src[i]
    m=re.match(r'^_bin2str\[(\w+)\] = (.*)$',l)
    if m: B.append(("  (%s, %s)"%(key(m.group(1)),b2s(m.group(2))),i+1))
    m=re.match(r'^_str2bin\["(\w+)"\] = (.*)$',l)
    if m: S.append(('  ($"%s", %s)'%(m.group(1),s2b(m.group(2))),i+1))
    if l=="for i in range(8):":
        B.append(("REG",i+1));S.append(("REG",i+1)); i+=4
    elif l=="for i in range(64):":
        B.append(("TUN",i+1));S.append(("TUN",i+1)); i+=4
    i+=1
def emit(name,ty,L,reg,tun):
    groups=[];cur=[]
    for e,ln in L:
        if e in("REG","TUN"):
            groups.append(("list",cur)); cur=[]; groups.append((e,ln))
        else: cur.append("%s (* %d *)"%(e,ln))
    groups.append(("list",cur))
    out=[]
    for k,v in groups:
        if k=="list":
            lines=[]
            for j,x in enumerate(v):
                a,c=x.rsplit(" (*",1)
                lines.append(a+(";" if j<len(v)-1 else "")+" (*"+c)
            out.append("[\n"+"\n".join(lines)+"\n]")
        elif k=="REG": out.append("%s (* oxm.py:%d-%d *)"%(reg,v,v+4))
        else: out.append("%s (* oxm.py:%d-%d *)"%(tun,v,v+4))
    return "Definition %s : list %s :=\n%s.\n"%(name,ty,"\n++ ".join(out))
print("(** Generated by tools/gen_tables.py from /repo/ofpstr/oxm.py:910-1289: the two\n    dictionaries _bin2str and _str2bin, one entry per registration line (the line\n    number is in the comment). Order = registration order. *)")
print("From Verif Require Import Base PyNum Util PyLib OxmCodec.\n")
print("(** _bin2str *)")
print(emit("bin2str_raw","(key * b2s)",B,
 "map (fun i => ((CNxm1, i), Buint ($\"nxm_reg\" ++ fmt_d i))) [0;1;2;3;4;5;6;7]",
 "map (fun i => ((CNxm1, 40 + i), Bhex ($\"nxm_tun_metadata\" ++ fmt_d i))) (map Z.of_nat (seq 0 64))"))
print("(** _str2bin *)")
print(emit("str2bin_raw","(text * s2b)",S,
 "map (fun i => ($\"nxm_reg\" ++ fmt_d i, Suint (CNxm1, i) 4)) [0;1;2;3;4;5;6;7]",
 "map (fun i => ($\"nxm_tun_metadata\" ++ fmt_d i, Shex (CNxm1, 40 + i))) (map Z.of_nat (seq 0 64))"))
print("Definition bin2str_tbl : list (key * b2s) := Eval vm_compute in bin2str_raw.")
print("Definition str2bin_tbl : list (text * s2b) := Eval vm_compute in str2bin_raw.")
