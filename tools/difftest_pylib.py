#!/usr/bin/env python3
"""Differential test of the *standard library* models (Base.v, PyNum.v, PyLib.v)
against the CPython installed here.  Nothing of /repo is imported or run.
Usage: difftest_pylib.py N SEED > DiffPyLib.v ; coqc -Q ../rocq/theories Verif DiffPyLib.v
Every printed list must be []  (it lists the failing case numbers)."""
import sys, random, socket, binascii, struct, re
N=int(sys.argv[1]); random.seed(int(sys.argv[2]))
def T(s): return "["+"; ".join(str(ord(c)) for c in s)+"]"
def B(b): return "(map z2b ["+"; ".join(str(c) for c in b)+"])"
EXN=[(AssertionError,"AssertionError"),(struct.error,"StructError"),(OverflowError,"OverflowError"),
 (ValueError,"ValueError"),(IndexError,"IndexError"),(KeyError,"KeyError"),(TypeError,"TypeError"),(OSError,"OSError")]
def R(f,show):
    try: v=f()
    except Exception as e:
        for k,n in EXN:
            if isinstance(e,k): return "Raise "+n
        raise
    return "Ok "+show(v)
def rs(alpha,n): return "".join(random.choice(alpha) for _ in range(random.randint(0,n)))
def rb(n, al=None):
    k=random.randint(0,n)
    return bytes(random.choice(al) if al else random.randrange(256) for _ in range(k))
tests={}
def add(name,eq,lhs,rhs): tests.setdefault((name,eq),[]).append("(%s, %s)"%(lhs,rhs))
for _ in range(N):
    s=rs("0123456789abcfABCF=g,",7); add("a2b_hex","rb","a2b_hex "+T(s),R(lambda:binascii.a2b_hex(s),B))
    s=rs("=0aAfFgz\r\n\t .,/x\x80",12); add("a2b_qp","rb","a2b_qp "+T(s),R(lambda:binascii.a2b_qp(s),B))
    b=rb(12,b"= \t\r\n.a\x00\xff~!"); add("b2a_qp","t","b2a_qp "+B(b),T(binascii.b2a_qp(b).decode()))
    b=rb(170,b"=  \t\n.aaaaaaabcdefgh\xffzzzzz"); add("b2a_qp_long","t","b2a_qp "+B(b),T(binascii.b2a_qp(b).decode()))
    b=rb(170,b"= \t\r\n.aaaaaaabcdefgh\xffzzzzz"); add("b2a_qp_long","t","b2a_qp "+B(b),T(binascii.b2a_qp(b).decode()))
    s=".".join(random.choice(["0","1","255","256","0x1f","010","08","65535","16777216","4294967295","4294967296","","a","0x","0xg","99999999999999999999999"]) for _ in range(random.randint(1,5)))+random.choice(["",""," "," x","x"])
    add("aton","rb","inet_aton "+T(s),R(lambda:socket.inet_aton(s),B))
    s=rs("0123.x:\x00é",9); add("aton","rb","inet_aton "+T(s),R(lambda:socket.inet_aton(s),B))
    b=rb(6); add("ntoa","rt","inet_ntoa "+B(b),R(lambda:socket.inet_ntoa(b),T))
    b=bytes(random.choice([0,0,0,1,255,18]) for _ in range(16))
    if random.random()<.5: b=b"".join(random.choice([b"\0\0",b"\0\0",b"\xff\xff",b"\1\2"]) for _ in range(8))
    if random.random()<.1: b=b[:random.randint(0,15)]
    add("ntop6","rt","inet_ntop6 "+B(b),R(lambda:socket.inet_ntop(socket.AF_INET6,b),T))
    s=":".join(random.choice(["","0","1","ffff","FfFf","12345","abc","1.2.3.4","01.2.3.4","g","255.255.255.256"]) for _ in range(random.randint(1,10)))
    add("pton6","rb","inet_pton6 "+T(s),R(lambda:socket.inet_pton(socket.AF_INET6,s),B))
    s=rs("01a::.",14); add("pton6","rb","inet_pton6 "+T(s),R(lambda:socket.inet_pton(socket.AF_INET6,s),B))
    if len(b)==16:
        s=socket.inet_ntop(socket.AF_INET6,b); add("pton6","rb","inet_pton6 "+T(s),R(lambda:socket.inet_pton(socket.AF_INET6,s),B))
    s=rs("0123456789_-+ \t\x1c\x85\xa0\u0665\u0966\uff17\U0001d7d8\u200b",6); add("py_int","rz","py_int "+T(s),R(lambda:int(s),lambda v:"(%d)"%v))
    n=random.choice([random.randrange(300),random.randrange(2**random.randint(1,130)),0,-random.randrange(1,300)])
    add("fmt_d","t","fmt_d (%d)"%n,T("{:d}".format(n)))
    for w in (0,2,4,6,10):
        add("fmt_x","t","fmt_x %d (%d)"%(w,n),T(("{:#0%dx}"%w if w else "{:#x}").format(n)))
    s=rs("a=, \t\x1c\x85\xa0()",8); m=re.match(r"^(\s*=\s*|[\s,]+)",s)
    add("token_head","t","token_head "+T(s),T(m.group(1) if m else ""))
    s=rs("a/:,",6); add("split_all","tl","split_all 58 "+T(s),"["+"; ".join(map(T,s.split(":")))+"]")
    fs=random.choice([("!HBxI","[sH;sB;sx 1;sI]",3),("<HBB4BBBH","[lH;lB;lB;lB;lB;lB;lB;lB;lB;lH]",10),("!QQ","[sQ;sQ]",2),("<b","[FS8]",1),("!IH6x","[sI;sH;sx 6]",2)])
    vs=[random.choice([0,1,-1,127,128,-128,-129,255,256,65535,65536,2**32-1,2**32,2**64-1,2**64]) if random.random()<.3 else random.randrange(128) for _ in range(random.choice([fs[2]]*6+[fs[2]+1,fs[2]-1]))]
    add("pack","rb","pack %s [%s]"%(fs[1],"; ".join("(%d)"%v for v in vs)),R(lambda:struct.pack(fs[0],*vs),B))
    b=rb(20); o=random.randint(0,5)
    add("unpack_from","rzl","unpack_from %s %s %d"%(fs[1],B(b),o),R(lambda:struct.unpack_from(fs[0],b,o),lambda v:"["+"; ".join("(%d)"%x for x in v)+"]"))
    b=rb(1) if random.random()<.5 else rb(8)
    add("unpack","rzl","unpack %s %s"%(fs[1],B(b)),R(lambda:struct.unpack(fs[0],b),lambda v:"["+"; ".join("(%d)"%x for x in v)+"]"))
print("From Verif Require Import Base PyNum Util PyLib.")
print("""Definition exn_eqb (a b:exn) := match a,b with AssertionError,AssertionError|ValueError,ValueError|KeyError,KeyError|IndexError,IndexError|TypeError,TypeError|StructError,StructError|NameError,NameError|OSError,OSError|OverflowError,OverflowError => true | _,_ => false end.
Definition reqb {A} (f:A->A->bool) (x y:res A) := match x,y with Ok a,Ok b => f a b | Raise a,Raise b => exn_eqb a b | Diverge,Diverge => true | _,_ => false end.
Fixpoint leqb {A} (f:A->A->bool) (x y:list A) := match x,y with [],[] => true | a::x,b::y => f a b && leqb f x y | _,_ => false end.
Fixpoint bad {A} (f:A->A->bool) (i:nat) (l:list (A*A)) := match l with [] => [] | (a,b)::l => if f a b then bad f (S i) l else i :: bad f (S i) l end.
Open Scope nat_scope. Open Scope Z_scope.""")
EQ={"rb":("reqb bytes_eqb","res bytes"),"t":("text_eqb","text"),"rt":("reqb text_eqb","res text"),"rz":("reqb Z.eqb","res Z"),"rzl":("reqb text_eqb","res (list Z)"),"tl":("leqb text_eqb","list text")}
for (name,eq),l in tests.items():
    f,ty=EQ[eq]
    print("(* %s %d *) Eval vm_compute in (bad (%s) 0%%nat ([\n%s] : list ((%s)*(%s)))%%Z)."%(name,len(l),f,";\n".join(l),ty,ty))
