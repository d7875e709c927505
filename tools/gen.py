import random
random.seed(5)
def rnd(bits):
    k=random.random()
    b=random.randint(1,bits)
    v=random.getrandbits(b)
    if k<0.2: v=(1<<b)-random.randint(0,3)
    if k>0.9: v=(1<<b)
    if 0.4<k<0.5: v = v & ~((1<<(b//2))-1)
    return v
def srnd(bits):
    v=rnd(bits); return v if random.random()<.5 else -v
out=[]
H="From Verif Require Import Mem Prog Kern Imath Exec.\nFrom Coq Require Import ZArith List. Import ListNotations. Open Scope Z_scope.\n"
def z(v): return f"({v})"
def st(*vs):
    s="st0"
    for i,v in enumerate(vs): s=f"(put (H {i+1}) {z(v)} {s})"
    return s
cnt=0
def chk(p,o,s,exp):
    global cnt; cnt+=1
    out.append(f"Goal result ({p}) (H {o}) {s} = Some {exp}. Proof. vm_compute. reflexivity. Qed.")
def tdiv(a,b):
    q=abs(a)//abs(b); q = q if (a<0)==(b<0) else -q
    return q, a-q*b
def ok(v): return f"(0, Some ({v}))"
for it in range(25):
    bits=random.choice([30,64,100,300])
    a,b,c=srnd(bits),srnd(bits),srnd(bits)
    S=st(a,b,c)
    chk("mp_int_add (H 1) (H 2) (H 3)",3,S,ok(a+b))
    chk("mp_int_add (H 1) (H 2) (H 1)",1,S,ok(a+b))
    chk("mp_int_sub (H 1) (H 2) (H 3)",3,S,ok(a-b))
    chk("mp_int_sub (H 1) (H 2) (H 2)",2,S,ok(a-b))
    chk("mp_int_mul (H 1) (H 2) (H 3)",3,S,ok(a*b))
    chk("mp_int_mul (H 1) (H 2) (H 2)",2,S,ok(a*b))
    chk("mp_int_sqr (H 1) (H 2)",2,S,ok(a*a))
    chk("mp_int_sqr (H 1) (H 1)",1,S,ok(a*a))
    if b:
        q,r=tdiv(a,b)
        chk("mp_int_div (H 1) (H 2) (Some (H 3)) None",3,S,ok(q))
        chk("mp_int_div (H 1) (H 2) (Some (H 2)) (Some (H 1))",2,S,ok(q))
        chk("mp_int_div (H 1) (H 2) (Some (H 2)) (Some (H 1))",1,S,ok(r))
        a2=a*b+c
        q,r=tdiv(a2,b)
        S2=st(a2,b)
        chk("mp_int_div (H 1) (H 2) (Some (H 1)) (Some (H 2))",1,S2,ok(q))
        chk("mp_int_div (H 1) (H 2) (Some (H 1)) (Some (H 2))",2,S2,ok(r))
        chk("mp_int_mod (H 1) (H 2) (H 2)",2,st(a,abs(b)),ok(a%abs(b)))
    k=random.randint(0,100)
    chk(f"mp_int_mul_pow2 (H 1) {k} (H 3)",3,S,ok(a<<k))
    q,r=tdiv(a,1<<k)
    chk(f"mp_int_div_pow2 (H 1) {k} (Some (H 3)) None",3,S,ok(q))
    chk(f"mp_int_div_pow2 (H 1) {k} None (Some (H 3))",3,S,ok(r))
    import math
    if a or b: chk("mp_int_gcd (H 1) (H 2) (H 3)",3,S,ok(math.gcd(a,b)))
    if a and b:
        A,B=abs(a),abs(b)
        if bits<=100:
          chk("mp_int_egcd (H 1) (H 2) (H 3) (Some (H 4)) (Some (H 5))",3,st(A,B,0,0,0),ok(math.gcd(a,b)))
          m=abs(b)+2
          try:
            iv=pow(A,-1,m); chk("mp_int_invmod (H 1) (H 2) (H 3)",3,st(A,m,0),ok(iv))
          except ValueError: pass
    if bits<=100:
        m=abs(b)+2; e=abs(c)
        chk("mp_int_exptmod (H 1) (H 2) (H 3) (H 4)",4,st(a,e,m,0),ok(pow(a,e,m)))
        chk("mp_int_exptmod (H 1) (H 2) (H 3) (H 3)",3,st(a,e,m,0),ok(pow(a,e,m)))
        bb=random.randint(2,5)
        x=abs(a)
        lo,hi=0,x+2
        while hi-lo>1:
            mid=(lo+hi)//2
            if mid**bb<=x: lo=mid
            else: hi=mid
        chk(f"mp_int_root (H 1) {bb} (H 2)",2,st(x,0),ok(lo))
        e=random.randint(0,9)
        chk(f"mp_int_expt (H 1) {e} (H 2)",2,st(a,0),ok(a**e))
        chk(f"mp_int_expt_full (H 1) (H 2) (H 3)",3,st(a,e,1),ok(a**e))
    # karatsuba
for it in range(4):
    n=random.randint(20,45)*32
    a=(rnd(n)|(1<<n))*random.choice([1,-1]); b=rnd(n)|(1<<(n-random.randint(0,100)))
    s=st(a,b,1).replace("st0","(set_glob st0 (Globals 8 8))")
    chk("mp_int_mul (H 1) (H 2) (H 3)",3,s,ok(a*b))
    chk("mp_int_mul (H 1) (H 2) (H 1)",1,s,ok(a*b))
    chk("mp_int_sqr (H 1) (H 1)",1,s,ok(a*a))
    chk("mp_int_sqr (H 1) (H 3)",3,s,ok(a*a))
open('/tmp/w/T.v','w').write(H+"\n".join(out)+"\n")
print(cnt)
